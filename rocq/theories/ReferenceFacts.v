(** Proofs about proposals committed by reference. *)
From Verif Require Export SpecReference CommitTreeFacts SplitFacts CrashFacts AcceptFacts OutcomeFacts ScheduleFacts.
From Coq Require Import Lia.

Section WithCrypto.
Context {C : crypto}.

(** ** What members remember *)
Definition keeps (g : group) (pp : pendingProposal) (ac : authenticatedContent) : Prop :=
  authentic g ac /\ wf_authenticatedContent ac /\
  fc_body (ac_content ac) = BProposal (pp_proposal pp) /\ fc_sender (ac_content ac) = SMember (pp_sender pp) /\
  generateProposalRef (gc_cipherSuite (gr_context g)) ac = Ok (pp_ref pp).
Definition all_kept (g : group) : Prop := forall pp, In pp (gr_pending g) -> exists ac, keeps g pp ac.

Lemma keeps_remembers g pp ac : keeps g pp ac -> remembers g pp ac.
Proof.
  intros (H1 & H2 & H3 & H4 & H5). unfold remembers. splits; auto.
  exact (proj1 (gives_proposalRef (gc_cipherSuite (gr_context g)) ac (pp_proposal pp) H2 H3) _ H5).
Qed.

Lemma same_leaves_authentic g g' ac : gr_context g' = gr_context g -> same_but_unmerged (gr_value g) (gr_value g') -> authentic g ac -> authentic g' ac.
Proof.
  intros Ec Hu (H1 & H2 & li & leaf & H3 & H4 & H5). unfold authentic. rewrite Ec. splits; auto. exists li, leaf. splits; auto.
  pose proof (same_but_unmerged_nth _ _ (N.to_nat ((2 * li) mod 2 ^ 32)) Hu) as N. rewrite H4 in N.
  destruct (nth_error (gr_value g') _) as [[n|]|]; [|contradiction|contradiction]. unfold grown_node in N. destruct n; [congruence|contradiction].
Qed.
Lemma same_leaves_kept g g' : gr_context g' = gr_context g -> same_but_unmerged (gr_value g) (gr_value g') -> gr_pending g' = gr_pending g ->
  all_kept g -> all_kept g'.
Proof.
  intros Ec Hu Ep K pp Hp. rewrite Ep in Hp. destruct (K _ Hp) as (ac & H1 & H). exists ac. split; [eapply same_leaves_authentic; eauto|]. now rewrite Ec.
Qed.

Lemma commit_kept g ac now g' r : obtained g -> all_kept g -> processCommit g ac [] [] now = (g', r) -> all_kept g'.
Proof.
  intros O K H. destruct r as [[]|e|p|].
  2,3,4: unfold processCommit in H; destruct (fc_body (ac_content ac)) as [?|?|c]; try (assert (g' = g) as -> by congruence; exact K);
    destruct (checkCommit _ _ _) as [[ps ss]|?|?|]; try (assert (g' = g) as -> by congruence; exact K);
    destruct (applyH _ _ _ _) as [[h t]|?|?|] eqn:Ea; try (assert (g' = g) as -> by congruence; exact K);
    destruct (finishCommit _ _ _ _ _ _ _ _) as [g1|?|?|] eqn:Ef; try (assert (g' = g) as -> by congruence; exact K); try discriminate.
  2: { assert (g' = withHeap g h) as -> by congruence. apply (same_leaves_kept g); auto.
       apply (extends_value (gr_heap g)); [exact (proj1 (proj1 (sane_consistent _ (obtained_sane _ O))))|]. eapply applyH_extends; eauto. }
  apply processCommit_ok in H. destruct H as (c & proposals & senders & h & t & _ & _ & _ & Hf).
  destruct (finishCommit_ok _ _ _ _ _ _ _ _ _ Hf) as (priv & nh & h1 & t1 & th & cs & priv1 & ctx & it & psk & es & ini & _ & _ & _ & _ & ->). intros pp [].
Qed.
Lemma message_kept g raw now g' r : obtained g -> all_kept g -> unmarshalAndProcessMessage g raw now = (g', r) -> all_kept g'.
Proof.
  intros O K H. apply acted_on_or in H. destruct H as [[-> _]|(ac & Hca & Hau & _ & H)]; [exact K|].
  destruct (fc_body (ac_content ac)) as [d|p|c] eqn:Eb.
  - destruct H as (-> & _). exact K.
  - unfold noData, processProposal in H. rewrite Eb in H. destruct (generateProposalRef _ _) as [ref|?|?|] eqn:Er; cbn [fst snd rmap] in H; try (assert (g' = g) as -> by congruence; exact K).
    apply pair_equal_spec in H. destruct H as [-> _]. intros pp Hp. cbn [withPending gr_pending] in Hp. apply in_app_iff in Hp. destruct Hp as [Hp|[<-|[]]]; [exact (K _ Hp)|].
    exists ac. unfold keeps. cbn [pp_proposal pp_sender pp_ref]. splits; auto; [exact (carries_content_wf _ _ _ Hca)|].
    destruct Hau as (_ & _ & li & leaf & Es & _). now rewrite Es.
  - unfold noData in H. destruct (processCommit g ac [] [] now) as [g1 r1] eqn:E. cbn [fst snd] in H. apply pair_equal_spec in H. destruct H as [-> _]. eapply commit_kept; eauto.
Qed.
Lemma obtained_kept g : obtained g -> all_kept g.
Proof.
  induction 1 as [gid kpp rnd g H|w kpp now g H|g kps rs ri rh rg g' r Ho IH H|g raw now g' r Ho IH H].
  - unfold createGroup in H. cbv zeta in H. rewrite first_leaf in H. cbn [rbind] in H.
    repeat (apply rbind_ok in H; destruct H as (? & _ & H)). apply Ok_inj in H. subst g. intros pp [].
  - apply groupFromWelcome_inv in H. destruct H as (ref & s & Eref & Es & Epsks & H). apply groupFromSecrets_inv in H.
    destruct H as (psk & gi & raw & t & signer & epoch & init & interim & me & priv & _ & _ & _ & _ & _ & _ & _ & _ & _ & _ & _ & _ & _ & -> & _). intros pp [].
  - destruct (createWelcome_frame _ _ _ _ _ _ _ _ (proj1 (sane_consistent _ (obtained_sane _ Ho))) H) as (h & -> & Hs). apply (same_leaves_kept g); auto.
  - eapply message_kept; eauto.
Qed.

Theorem pending_are_authentic g pp : obtained g -> In pp (gr_pending g) -> exists ac, remembers g pp ac.
Proof. intros O Hp. destruct (obtained_kept g O pp Hp) as (ac & H). exists ac. now apply keeps_remembers. Qed.

Lemma first_in pending ref pp : first_with_ref pending ref pp -> In pp pending /\ pp_ref pp = ref.
Proof. intros (l1 & l2 & -> & E & _). split; [apply in_app_iff; right; now left|exact E]. Qed.

Theorem committed_rightly g li c ps p s : obtained g -> commits g li c ps -> In (p, s) ps -> rightly_committed g li c p s.
Proof.
  intros O H Hin. unfold commits in H. destruct (Forall2_in_r _ _ _ H (p, s) Hin) as (por & Hi & Hs). destruct por as [q|ref]; cbn [stands_for] in Hs.
  - left. apply pair_equal_spec in Hs as [-> ->]. auto.
  - right. destruct Hs as (pp & Hf & E). apply pair_equal_spec in E as [-> ->]. apply first_in in Hf as [Hp <-].
    destruct (pending_are_authentic g pp O Hp) as (ac & A & _ & B & S & R). exists ac. rewrite <- R. auto.
Qed.

Theorem accepted_rightly g raw now ac c g' : obtained g -> accepts_commit g raw now ac c g' ->
  exists li ps t, fc_sender (ac_content ac) = SMember li /\ commits g li c ps /\ (forall p s, In (p, s) ps -> rightly_committed g li c p s) /\
    after_proposals (gr_value g) ps t /\
    match c_path c with
    | None => gr_value g' = t
    | Some up => exists k, merged (gc_cipherSuite (gr_context g)) k t (gr_value g') (designated li) up
    end.
Proof.
  intros O A. pose proof (accepts_commit_inv _ _ _ _ _ _ A) as [Au H].
  apply processCommit_ok in H. destruct H as (c' & proposals & senders & h & t & Hb' & Hck & _). pose proof A as (_ & Hb & _). assert (c' = c) by congruence. subst c'.
  destruct Au as (_ & _ & li & sn & Hs & _). rewrite Hs in Hck. cbn [sender_leafIndex] in Hck.
  unfold checkCommit in Hck. apply rbind_ok in Hck. destruct Hck as (ps & E & _). apply (proj1 (resolveProposals_spec _ _ _ _)) in E.
  destruct (tree_after_commit g raw now ac c g' li ps O A Hs E) as (v & Ha & P). exists li, ps, v. splits; auto.
  - intros p s Hp. eapply committed_rightly; eauto.
  - destruct (c_path c); [|exact P]. destruct P as (_ & k & _ & _ & M). exists k. exact M.
Qed.

(** ** What references stand for *)
Lemma hashed_same cs1 cs2 r1 r2 l v1 v2 e1 e2 : hashOf cs1 = hashOf cs2 ->
  refHash cs1 l v1 = Ok r1 -> refHash cs2 l v2 = Ok r2 -> r1 = r2 -> v1 = e1 -> v2 = e2 ->
  v1 = v2 \/ collide [QHash (hashOf cs1) (enc_refHashInput l e1)] [QHash (hashOf cs2) (enc_refHashInput l e2)].
Proof.
  intros Hh H1 H2 <- <- <-. pose proof (proj1 (gives_refHash cs1 l v1) _ H1) as A1. pose proof (proj1 (gives_refHash cs2 l v2) _ H2) as A2.
  unfold refHash in H1, H2. apply rbind_ok in H1 as (i1 & I1 & _). apply rbind_ok in H2 as (i2 & I2 & _).
  pose proof (writes_refHashInput _ _ _ I1) as W1. pose proof (writes_refHashInput _ _ _ I2) as W2.
  destruct (list_eq_dec Byte.byte_eq_dec i1 i2) as [E|E].
  - left. rewrite <- E in I2. unfold putRefHashInput in I1, I2. apply wapp_ok in I1 as (a1 & b1 & X1 & Y1 & ->). apply wapp_ok in I2 as (a2 & b2 & X2 & Y2 & E2).
    destruct (opaque_app_inj _ _ _ _ _ _ X1 X2 E2) as [_ ->]. now destruct (opaque_app_inj _ _ _ _ [] [] Y1 Y2 eq_refl) as [-> _].
  - right. eexists _, _. split; [left; reflexivity|]. split; [left; reflexivity|]. unfold collision. cbn [comparable answer]. splits.
    + exact Hh.
    + intros Q. assert (Inj : forall h1 m1 h2 m2, QHash h1 m1 = QHash h2 m2 -> m1 = m2) by congruence. apply Inj in Q. congruence.
    + unfold RefHash, Hash in A1, A2. congruence.
Qed.

Theorem proposal_refs_bind cs ac1 ac2 r : wf_authenticatedContent ac1 -> wf_authenticatedContent ac2 ->
  generateProposalRef cs ac1 = Ok r -> generateProposalRef cs ac2 = Ok r -> ac1 = ac2 \/ collide (proposalQueries cs ac1) (proposalQueries cs ac2).
Proof.
  intros W1 W2 H1 H2. unfold generateProposalRef in H1, H2. destruct (fc_body (ac_content ac1)); try discriminate. destruct (fc_body (ac_content ac2)); try discriminate.
  apply rbind_ok in H1 as (v1 & P1 & H1). apply rbind_ok in H2 as (v2 & P2 & H2).
  pose proof (writes_authenticatedContent _ _ P1) as E1. pose proof (writes_authenticatedContent _ _ P2) as E2.
  destruct (hashed_same cs cs r r _ v1 v2 _ _ eq_refl H1 H2 eq_refl E1 E2) as [E|E]; [left|right; exact E].
  rewrite <- E in P2. exact (RT_inj _ _ _ _ _ _ authenticatedContent_RT W1 W2 P1 P2).
Qed.
Theorem package_refs_bind k1 k2 r : hashOf (kp_cipherSuite k1) = hashOf (kp_cipherSuite k2) -> wf_keyPackage k1 -> wf_keyPackage k2 ->
  keyPackageRef k1 = Ok r -> keyPackageRef k2 = Ok r -> k1 = k2 \/ collide (keyPackageQueries k1) (keyPackageQueries k2).
Proof.
  intros Hh W1 W2 H1 H2. unfold keyPackageRef in H1, H2.
  apply rbind_ok in H1 as (v1 & P1 & H1). apply rbind_ok in H2 as (v2 & P2 & H2).
  pose proof (writes_keyPackage _ _ P1) as E1. pose proof (writes_keyPackage _ _ P2) as E2.
  destruct (hashed_same _ _ r r _ v1 v2 _ _ Hh H1 H2 eq_refl E1 E2) as [E|E]; [left|right; exact E].
  rewrite <- E in P2. exact (RT_inj _ _ _ _ _ _ keyPackage_RT W1 W2 P1 P2).
Qed.

(** ** Members who accept the same commits *)
Lemma Forall2_cons_l {A B} (R : A -> B -> Prop) a l r : Forall2 R (a :: l) r -> exists b r', R a b /\ Forall2 R l r' /\ r = b :: r'.
Proof. intros H. inversion H; subst. eauto. Qed.
Lemma same_proposals g m li c ps psm : obtained g -> obtained m -> gr_context m = gr_context g ->
  commits g li c ps -> commits m li c psm -> psm = ps \/ references_collide g m c.
Proof.
  intros O Om Ec H1 H2. unfold commits in H1, H2.
  assert (G : forall l, incl l (c_proposals c) -> forall ps psm, Forall2 (stands_for li (gr_pending g)) l ps -> Forall2 (stands_for li (gr_pending m)) l psm -> psm = ps \/ references_collide g m c).
  2: { exact (G _ (incl_refl _) _ _ H1 H2). }
  clear ps psm H1 H2. induction l as [|por l IH]; intros Hi ps psm H1 H2; [inversion H1; inversion H2; now left|].
  apply Forall2_cons_l in H1 as (x1 & l1 & H3 & H4 & ->). apply Forall2_cons_l in H2 as (x2 & l2 & H8 & H10 & ->).
  destruct (IH (fun x h => Hi x (or_intror h)) _ _ H4 H10) as [->|R]; [|now right].
  destruct por as [q|ref]; cbn [stands_for] in H3, H8; [left; congruence|].
  destruct H3 as (pp1 & F1 & ->). destruct H8 as (pp2 & F2 & ->). apply first_in in F1 as [I1 R1]. apply first_in in F2 as [I2 R2].
  destruct (obtained_kept g O _ I1) as (ac1 & K1). destruct (obtained_kept m Om _ I2) as (ac2 & K2).
  pose proof K1 as (_ & W1 & B1 & S1 & G1). pose proof K2 as (_ & W2 & B2 & S2 & G2). rewrite Ec in G2. rewrite R1 in G1. rewrite R2 in G2.
  destruct (proposal_refs_bind _ _ _ _ W1 W2 G1 G2) as [<-|Co].
  - left. assert (pp_proposal pp2 = pp_proposal pp1) by congruence. assert (pp_sender pp2 = pp_sender pp1) by congruence. congruence.
  - right. exists pp1, ac1, pp2, ac2. pose proof (keeps_remembers _ _ _ K1) as M1. splits; auto using keeps_remembers.
    destruct M1 as (_ & _ & _ & _ & <-). rewrite R1. apply Hi. now left.
Qed.

Theorem same_commit_agrees g m raw now now' ac ac' c c' g' m' : obtained g -> obtained m -> agree g m ->
  accepts_commit g raw now ac c g' -> accepts_commit m raw now' ac' c' m' ->
  ac' = ac /\ c' = c /\ (agree g' m' \/ keys_collide g m c g' \/ references_collide g m c).
Proof.
  intros O Om Ag A B. pose proof Ag as (S1 & S2 & S3 & S4 & S5 & S6). pose proof (obtained_sane g O) as Sa. pose proof (obtained_sane m Om) as Sm.
  assert (Se : same_epoch g m) by (unfold same_epoch; splits; congruence).
  pose proof A as (Hca & Hb & _). pose proof B as (Hcb & Hb2 & _).
  assert (ac' = ac) by (eapply carries_fun; [exact Hcb|eapply carries_same; eauto]). subst ac'. assert (c' = c) by congruence. subst c'. clear Hb2.
  split; [reflexivity|]. split; [reflexivity|].
  apply accepts_commit_inv in A as [Hau Ep]. apply accepts_commit_inv in B as [_ Em].
  apply processCommit_ok in Ep. destruct Ep as (c1 & pr & sn & h & t & Hb1 & Hck & Ha & Hf). assert (c1 = c) by congruence. subst c1.
  apply processCommit_ok in Em. destruct Em as (c1 & prm & snm & hm & tm & Hb2 & Hckm & Ham & Hfm). assert (c1 = c) by congruence. subst c1.
  destruct (checkCommit_pairs _ _ _ _ _ Hck) as (ps & Hc & -> & -> & _). destruct (checkCommit_pairs _ _ _ _ _ Hckm) as (psm & Hcm & -> & -> & _).
  destruct (same_proposals g m _ c ps psm O Om S1 Hc Hcm) as [->|R]; [|auto].
  pose proof (proj1 (sane_consistent _ Sa)) as Pr. destruct (applyH_value_ok _ _ _ _ _ _ Pr Ha) as [V P]. fold (gr_value g) in V.
  pose proof (proj1 (sane_consistent _ Sm)) as Prm. destruct (applyH_value_ok _ _ _ _ _ _ Prm Ham) as [Vm Pm]. fold (gr_value m) in Vm.
  rewrite S2, V in Vm. apply Ok_inj in Vm.
  pose proof (vapply_shape _ _ _ _ (sane_shape _ Sa) V) as W.
  destruct (finish_same g m ac c h t hm tm now now' g' m' Ag P Pm W (eq_sym Vm) Hf Hfm) as (_ & _ & _ & _ & _ & [E|E]); auto.
Qed.

Lemma aside_keeps g g' : obtained g -> aside g g' -> obtained g' /\ agree g g'.
Proof.
  intros O H. destruct H as [g raw now d g' H He|g raw now e g' H Hs|g kps rs ri rh rg g' r H Hs].
  - split; [eapply obtained_message; [exact O|eassumption]|].
    pose proof (acted_on g raw now) as Ga. rewrite H in Ga. destruct Ga as (ac & Hc & _ & _ & Hx); [auto|].
    destruct (fc_body (ac_content ac)) as [x|x|c] eqn:Eb.
    + destruct Hx as (-> & _). unfold agree. splits; auto.
    + unfold noData, processProposal in Hx. rewrite Eb in Hx. destruct (generateProposalRef _ ac) as [ref|e|e|]; cbn in Hx; try discriminate.
      apply pair_equal_spec in Hx as [-> _]. unfold agree, gr_value. cbn. splits; auto.
    + exfalso. assert (A : accepts_commit g raw now ac c g').
      { splits; auto. unfold noData in Hx. destruct (processCommit g ac [] [] now) as [g1 r1]. cbn [fst snd] in Hx. apply pair_equal_spec in Hx as [<- E].
        destruct r1 as [[]|?|?|]; try discriminate. cbn in E. congruence. }
      destruct (commit_new_state _ _ _ _ _ _ A) as (th & cf & x1 & x2 & x3 & x4 & Hctx & _). rewrite Hctx in He. cbn [gc_epoch] in He.
      pose proof (sane_epoch _ (obtained_sane _ O)) as U. unfold u64 in U.
      destruct (N.eq_dec (gc_epoch (gr_context g)) (2 ^ 64 - 1)) as [E|E].
      * rewrite E in He. discriminate.
      * rewrite N.mod_small in He by lia. lia.
  - split; [eapply obtained_message; [exact O|eassumption]|]. exact (proj1 Hs).
  - split; [eapply obtained_welcome; [exact O|eassumption]|]. exact (proj1 Hs).
Qed.
Lemma agree_sym g m : agree g m -> agree m g.
Proof. intros (E1 & E2 & E3 & E4 & E5 & E6). unfold agree. splits; auto. Qed.
Lemma agree_trans a b c : agree a b -> agree b c -> agree a c.
Proof. intros (E1 & E2 & E3 & E4 & E5 & E6) (F1 & F2 & F3 & F4 & F5 & F6). unfold agree. splits; congruence. Qed.

Lemma commits_obtained g m g' m' : same_commits g m g' m' -> obtained g -> obtained m -> obtained g' /\ obtained m'.
Proof.
  induction 1 as [g m|g m g1 m1 g' H IH A|g m g1 m1 m' H IH A|g m g1 m1 raw now now' ac ac' c c' g' m' H IH A B]; intros O Om; [auto| | |];
    destruct (IH O Om) as [O1 O2]; split; auto.
  - now apply aside_keeps in A.
  - now apply aside_keeps in A.
  - destruct A as (_ & _ & A). eapply obtained_message; [exact O1|exact A].
  - destruct B as (_ & _ & B). eapply obtained_message; [exact O2|exact B].
Qed.

Theorem same_commits_agree g m g' m' : obtained g -> obtained m -> agree g m -> same_commits g m g' m' ->
  agree g' m' \/
  exists g1 m1 raw now now' ac c g2 m2, same_commits g m g1 m1 /\ agree g1 m1 /\
    accepts_commit g1 raw now ac c g2 /\ accepts_commit m1 raw now' ac c m2 /\ (keys_collide g1 m1 c g2 \/ references_collide g1 m1 c).
Proof.
  intros O Om Ag H. induction H as [g m|g m g1 m1 g' H IH A|g m g1 m1 m' H IH A|g m g1 m1 raw now now' ac ac' c c' g' m' H IH A B]; [auto| | |];
    destruct (commits_obtained _ _ _ _ H O Om) as [O1 O2]; (destruct (IH O Om Ag) as [A1|R]; [|now right]).
  - left. destruct (aside_keeps _ _ O1 A) as [_ A2]. exact (agree_trans _ _ _ (agree_sym _ _ A2) A1).
  - left. destruct (aside_keeps _ _ O2 A) as [_ A2]. exact (agree_trans _ _ _ A1 A2).
  - destruct (same_commit_agrees g1 m1 raw now now' ac ac' c c' g' m' O1 O2 A1 A B) as (-> & -> & [A'|K]); [auto|].
    right. exists g1, m1, raw, now, now', ac, c, g', m'. splits; auto.
Qed.
End WithCrypto.
