(** Proofs about the use of pending proposals (C101). *)
From Verif Require Export SpecPending AlikeFacts ProposalFacts.
From Coq Require Import Lia Permutation.

(** ** Looking up *)
Lemma looked_up_iff P ref p s : looked_up P ref p s <-> exists pp, find (fun pp => bytes_eqb (pp_ref pp) ref) P = Some pp /\ pp_proposal pp = p /\ pp_sender pp = s.
Proof. unfold looked_up. split; intros (pp & F & E); exists pp; (split; [|exact E]); now apply find_first. Qed.
Lemma find_same P Q ref : (forall p s, looked_up P ref p s <-> looked_up Q ref p s) ->
  match find (fun pp => bytes_eqb (pp_ref pp) ref) P with Some pp => Ok (pp_proposal pp, pp_sender pp) | None => Err "mls: cannot find proposal reference" end =
  match find (fun pp => bytes_eqb (pp_ref pp) ref) Q with Some pp => Ok (pp_proposal pp, pp_sender pp) | None => Err "mls: cannot find proposal reference" end.
Proof.
  intros H. destruct (find _ P) as [a|] eqn:Ea.
  - destruct (proj1 (H (pp_proposal a) (pp_sender a))) as (b & F & <- & <-); [apply looked_up_iff; eauto|]. apply find_first in F. now rewrite F.
  - destruct (find _ Q) as [b|] eqn:Eb; [|reflexivity]. destruct (proj2 (H (pp_proposal b) (pp_sender b))) as (a & F & _); [apply looked_up_iff; eauto|].
    apply find_first in F. congruence.
Qed.
Lemma resolve_same l li P Q : (forall ref, In (PorReference ref) l -> forall p s, looked_up P ref p s <-> looked_up Q ref p s) ->
  resolveProposals l li P = resolveProposals l li Q.
Proof.
  induction l as [|[p|ref] l IH]; intros H; [reflexivity| |]; cbn [resolveProposals].
  - rewrite IH; [reflexivity|]. intros r Hr. apply H. now right.
  - rewrite (find_same P Q ref); [|apply H; now left]. rewrite IH; [reflexivity|]. intros r Hr. apply H. now right.
Qed.

(** ** Lists that agree *)
Theorem other_references c P R Q : (forall pp, In pp R -> ~ In (PorReference (pp_ref pp)) (c_proposals c)) -> same_references c (P ++ Q) (P ++ R ++ Q).
Proof.
  intros H ref Hr p s. rewrite !looked_up_iff.
  assert (E : find (fun pp => bytes_eqb (pp_ref pp) ref) (P ++ R ++ Q) = find (fun pp => bytes_eqb (pp_ref pp) ref) (P ++ Q)).
  { induction P as [|a P IH]; cbn [app find].
    - induction R as [|a R IH]; [reflexivity|]. cbn [app find]. destruct (bytes_eqb_spec (pp_ref a) ref) as [E|E].
      + exfalso. apply (H a); [now left|now rewrite E].
      + apply IH. intros pp Hpp. apply H. now right.
    - destruct (bytes_eqb (pp_ref a) ref); [reflexivity|exact IH]. }
  now rewrite E.
Qed.
Theorem repeated_references c P R : (forall pp, In pp R -> In (pp_ref pp) (map pp_ref P)) -> same_references c P (P ++ R).
Proof.
  intros H ref Hr p s. rewrite !looked_up_iff.
  assert (E : find (fun pp => bytes_eqb (pp_ref pp) ref) (P ++ R) = find (fun pp => bytes_eqb (pp_ref pp) ref) P).
  { destruct (find (fun pp => bytes_eqb (pp_ref pp) ref) P) as [a|] eqn:E.
    - clear H. induction P as [|b P IH]; [discriminate|]. cbn [app find] in *. destruct (bytes_eqb (pp_ref b) ref); [exact E|now apply IH].
    - apply find_none. apply find_none in E. rewrite map_app, in_app_iff. intros [I|I]; [now apply E|]. apply in_map_iff in I as (b & <- & I). apply E. now apply H. }
  now rewrite E.
Qed.
Lemma find_perm P Q ref : Permutation P Q -> NoDup (map pp_ref P) ->
  find (fun pp => bytes_eqb (pp_ref pp) ref) P = find (fun pp => bytes_eqb (pp_ref pp) ref) Q.
Proof.
  intros H. induction H as [|x P Q H IH|x y P|P Q R H1 IH1 H2 IH2]; intros Nd.
  - reflexivity.
  - cbn [find]. inversion Nd; subst. rewrite IH; auto.
  - cbn [find]. destruct (bytes_eqb_spec (pp_ref y) ref) as [Ey|Ey], (bytes_eqb_spec (pp_ref x) ref) as [Ex|Ex]; try reflexivity.
    exfalso. inversion Nd as [|? ? N _]; subst. apply N. left. congruence.
  - rewrite IH1; [|exact Nd]. apply IH2. eapply Permutation_NoDup; [apply (Permutation_map pp_ref H1)|exact Nd].
Qed.
Theorem reordered_references c P Q : Permutation P Q -> NoDup (map pp_ref P) -> same_references c P Q.
Proof. intros H Nd ref _ p s. rewrite !looked_up_iff. now rewrite (find_perm P Q ref H Nd). Qed.

Section WithCrypto.
Context {C : crypto}.

Lemma check_same g m li c : gr_context m = gr_context g -> same_references c (gr_pending g) (gr_pending m) -> checkCommit m li c = checkCommit g li c.
Proof. intros Ec H. unfold checkCommit. now rewrite (resolve_same (c_proposals c) li (gr_pending g) (gr_pending m) H), Ec. Qed.

(** ** One member *)
Lemma same_but_refl g P : same_but_pending g (withPending g P).
Proof. unfold same_but_pending. splits; reflexivity. Qed.
Lemma commit_pending g P ac c now : fc_body (ac_content ac) = BCommit c -> same_references c (gr_pending g) P ->
  let r1 := processCommit g ac [] [] now in let r2 := processCommit (withPending g P) ac [] [] now in
  snd r2 = snd r1 /\ same_but_pending (fst r1) (fst r2) /\
  (is_ok (snd r1) = true -> fst r2 = fst r1) /\ (is_ok (snd r1) = false -> gr_pending (fst r1) = gr_pending g /\ gr_pending (fst r2) = P).
Proof.
  intros Hb Hs. cbv zeta. unfold processCommit. rewrite Hb. rewrite (check_same g (withPending g P) _ c eq_refl Hs).
  destruct (checkCommit g _ c) as [[ps ss]|e|e|]; [|cbn [fst snd is_ok]; splits; auto using same_but_refl; discriminate..].
  change (gr_heap (withPending g P)) with (gr_heap g). change (gr_tree (withPending g P)) with (gr_tree g).
  destruct (applyH (gr_heap g) (gr_tree g) ps ss) as [[h t]|e|e|]; [|cbn [fst snd is_ok]; splits; auto using same_but_refl; discriminate..].
  change (finishCommit (withPending g P) ac c h t [] [] now) with (finishCommit g ac c h t [] [] now).
  destruct (finishCommit g ac c h t [] [] now) as [g'|e|e|]; cbn [fst snd is_ok]; splits; auto using same_but_refl; try discriminate.
  - destruct g'. reflexivity.
  - reflexivity.
Qed.

Theorem message_pending g P raw now g1 r1 g2 r2 :
  (forall ac c, carries g raw ac -> fc_body (ac_content ac) = BCommit c -> same_references c (gr_pending g) P) ->
  unmarshalAndProcessMessage g raw now = (g1, r1) -> unmarshalAndProcessMessage (withPending g P) raw now = (g2, r2) ->
  r2 = r1 /\ same_but_pending g1 g2 /\
  ((exists ac c, accepts_commit g raw now ac c g1) /\ g2 = g1 \/
   exists l, gr_pending g1 = gr_pending g ++ l /\ gr_pending g2 = P ++ l).
Proof.
  intros Hc E1 E2. pose proof E1 as E0. unfold unmarshalAndProcessMessage in E1, E2.
  assert (Id : forall r : res (option bytes), (g, r) = (g1, r1) -> (withPending g P, r) = (g2, r2) ->
    r2 = r1 /\ same_but_pending g1 g2 /\ ((exists ac c, accepts_commit g raw now ac c g1) /\ g2 = g1 \/
     exists l, gr_pending g1 = gr_pending g ++ l /\ gr_pending g2 = P ++ l)).
  { intros r H1 H2. injection H1 as <- <-. injection H2 as <- <-. splits; auto using same_but_refl. right. exists []. now rewrite !app_nil_r. }
  assert (Pr : forall ac p, fc_body (ac_content ac) = BProposal p ->
    noData (processProposal g ac) = (g1, r1) -> noData (processProposal (withPending g P) ac) = (g2, r2) ->
    r2 = r1 /\ same_but_pending g1 g2 /\ ((exists ac c, accepts_commit g raw now ac c g1) /\ g2 = g1 \/
     exists l, gr_pending g1 = gr_pending g ++ l /\ gr_pending g2 = P ++ l)).
  { intros ac p Hb. unfold processProposal, noData. rewrite Hb. change (gr_context (withPending g P)) with (gr_context g).
    destruct (generateProposalRef _ ac) as [ref|e|e|]; cbn [fst snd]; try (apply Id). intros H1 H2.
    apply pair_equal_spec in H1 as [<- <-]. apply pair_equal_spec in H2 as [<- <-]. splits; auto; [unfold same_but_pending; splits; reflexivity|]. right. eexists. split; reflexivity. }
  assert (Co : forall ac c, carries g raw ac -> fc_body (ac_content ac) = BCommit c ->
    noData (processCommit g ac [] [] now) = (g1, r1) -> noData (processCommit (withPending g P) ac [] [] now) = (g2, r2) ->
    r2 = r1 /\ same_but_pending g1 g2 /\ ((exists ac c, accepts_commit g raw now ac c g1) /\ g2 = g1 \/
     exists l, gr_pending g1 = gr_pending g ++ l /\ gr_pending g2 = P ++ l)).
  { intros ac c Hca Hb H1 H2. destruct (commit_pending g P ac c now Hb (Hc ac c Hca Hb)) as (A & B & D & F).
    unfold noData in H1, H2. rewrite A in H2.
    apply pair_equal_spec in H1 as [G1 R1]. apply pair_equal_spec in H2 as [G2 R2]. rewrite G1, G2 in *. splits; [congruence|exact B|].
    destruct (snd (processCommit g ac [] [] now)) as [u|e|e|]; cbn [is_ok rmap] in *.
    - left. split; [|now apply D]. exists ac, c. unfold accepts_commit. splits; auto. now rewrite E0, <- R1.
    - right. exists []. rewrite !app_nil_r. now apply F.
    - right. exists []. rewrite !app_nil_r. now apply F.
    - right. exists []. rewrite !app_nil_r. now apply F. }
  destruct (unmarshal getMlsMessage raw) as [[x|x|w|gi|kp]| | |] eqn:Er; try (now apply (Id _ E1 E2)).
  - unfold processPublicMessage in E1, E2. change (verifyPublicMessage (withPending g P) x) with (verifyPublicMessage g x) in E2.
    destruct (verifyPublicMessage g x) as [ac|e|e|] eqn:Ev; try (now apply (Id _ E1 E2)).
    assert (Hca : carries g raw ac) by (destruct (verifyPublicMessage_ok _ _ _ Ev) as (Hac & _); rewrite Hac; now apply carries_public).
    destruct (fc_body (ac_content ac)) as [d|p|c] eqn:Eb; [now apply (Id _ E1 E2)|now apply (Pr ac p Eb)|now apply (Co ac c Hca Eb)].
  - unfold processPrivateMessage in E1, E2. change (openPrivateMessage (withPending g P) x) with (openPrivateMessage g x) in E2.
    destruct (openPrivateMessage g x) as [ac|e|e|] eqn:Ev; try (now apply (Id _ E1 E2)).
    destruct (openPrivateMessage_ok _ _ _ _ Er Ev) as (Hca & _).
    destruct (fc_body (ac_content ac)) as [d|p|c] eqn:Eb; [now apply (Id _ E1 E2)|now apply (Pr ac p Eb)|now apply (Co ac c Hca Eb)].
Qed.

Theorem welcome_pending g P kps rs ri rh rg : snd (createWelcome (withPending g P) kps rs ri rh rg) = snd (createWelcome g kps rs ri rh rg).
Proof.
  destruct kps as [|k kps]; [reflexivity|]. cbn [createWelcome]. change (gr_heap (withPending g P)) with (gr_heap g). change (gr_tree (withPending g P)) with (gr_tree g).
  change (gr_myLeafIndex (withPending g P)) with (gr_myLeafIndex g). destruct (applyH _ _ _ _) as [[h t]|e|e|]; [|reflexivity|reflexivity|reflexivity].
  cbn [snd]. unfold finishWelcome, groupEncryptPrivateMessage, ownContent, withPending. cbv zeta.
  cbn [gr_heap gr_tree gr_context gr_interimTranscriptHash gr_epochSecret gr_initSecret gr_myLeafIndex gr_signaturePriv].
  reflexivity.
Qed.

(** ** Two members *)
Theorem members_pending g m raw now now' : obtained g -> obtained m -> agree g m ->
  (forall ac c, carries g raw ac -> fc_body (ac_content ac) = BCommit c -> c_path c = None /\ same_references c (gr_pending g) (gr_pending m)) ->
  snd (unmarshalAndProcessMessage m raw now') = snd (unmarshalAndProcessMessage g raw now).
Proof.
  intros O Om Ag H. pose proof Ag as (S1 & S2 & S3 & S4 & S5 & S6).
  set (m1 := withPending m (gr_pending g)).
  transitivity (snd (unmarshalAndProcessMessage m1 raw now')).
  - destruct (unmarshalAndProcessMessage m raw now') as [g1 r1] eqn:E1. destruct (unmarshalAndProcessMessage m1 raw now') as [g2 r2] eqn:E2.
    symmetry. eapply (message_pending m (gr_pending g) raw now'); [|exact E1|exact E2].
    intros ac c Hca Hb. assert (Hcg : carries g raw ac) by (eapply carries_same; [|exact Hca]; unfold same_epoch; splits; congruence).
    destruct (H ac c Hcg Hb) as [_ R]. intros ref Hr p s. symmetry. now apply R.
  - apply responds_alike_sane; auto using obtained_sane; [|exact (fun ac c Hca Hb => proj1 (H ac c Hca Hb))].
    destruct (obtained_sane m Om) as [A1 A2 A3 A4]. constructor; assumption.
Qed.
End WithCrypto.
