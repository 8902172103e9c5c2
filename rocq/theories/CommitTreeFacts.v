(** The tree of a member after a commit. *)
From Verif Require Import KeyFacts IntegrityFacts TreeOpFacts JoinFacts WireSpecFacts CodecFacts2.
From Verif Require Export SpecCommitTree.

Lemma updates_one_by_one l : forall t t', well_shaped t -> foldM updPair t l = Ok t' -> one_by_one updated t (updatesOf l) t' /\ well_shaped t'.
Proof.
  induction l as [|[p s] l IH]; intros t t' W H; cbn [foldM] in H.
  - apply Ok_inj in H. subst. split; [constructor|assumption].
  - apply rbind_ok in H. destruct H as (t1 & H1 & H2). unfold updPair in H1. cbn [fst snd] in H1.
    destruct p as [kp|n|rm|id|ri|ko|exts]; try (apply Ok_inj in H1; subst; now apply IH).
    destruct (update_shape _ _ _ _ W H1) as (k & S & R & S1). destruct (IH _ _ (or_intror (ex_intro _ k S1)) H2) as [O W2].
    split; [|assumption]. change (updatesOf ((PUpdate n, s) :: l)) with ((designated s, n) :: updatesOf l).
    eapply one_more; [|exact O]. exists k. auto.
Qed.
Lemma removes_one_by_one props : forall t t', well_shaped t -> foldM remStep t props = Ok t' ->
  one_by_one removed t (flat_map (fun p => match p with PRemove r => [designated r] | _ => [] end) props) t' /\ well_shaped t'.
Proof.
  induction props as [|p props IH]; intros t t' W H; cbn [foldM flat_map] in *.
  - apply Ok_inj in H. subst. split; [constructor|assumption].
  - apply rbind_ok in H. destruct H as (t1 & H1 & H2). unfold remStep in H1.
    destruct p; try (apply Ok_inj in H1; subst; cbn [app]; now apply IH).
    destruct (remove_shape _ _ _ W H1) as (k & t0 & S & R & S1 & T & W1). destruct (IH _ _ W1 H2) as [O W2].
    split; [|assumption]. cbn [app]. eapply one_more; [|exact O]. exists k, t0. auto.
Qed.
Lemma adds_one_by_one props : forall t t', well_shaped t -> foldM addStep t props = Ok t' ->
  one_by_one joined t (flat_map (fun p => match p with PAdd k => [kp_leafNode k] | _ => [] end) props) t'.
Proof.
  induction props as [|p props IH]; intros t t' W H; cbn [foldM flat_map] in *.
  - apply Ok_inj in H. subst. constructor.
  - apply rbind_ok in H. destruct H as (t1 & H1 & H2). unfold addStep in H1.
    destruct p; try (apply Ok_inj in H1; subst; cbn [app]; now apply IH).
    destruct (add_shape _ _ _ W H1) as (k & t0 & li & L & T & S & A). cbn [app].
    eapply one_more; [|apply IH; [right; exists k; apply A|exact H2]]. exists k, t0, li. auto.
Qed.
Lemma vapply_one_by_one t ps t' : well_shaped t -> vapply t (map fst ps) (map snd ps) = Ok t' -> after_proposals t ps t'.
Proof.
  intros W H. rewrite vapply_eq, updates_eq in H. apply rbind_ok in H. destruct H as (t1 & H1 & H).
  apply rbind_ok in H. destruct H as (t2 & H2 & H3). destruct (updates_one_by_one _ _ _ W H1) as [U W1].
  destruct (removes_one_by_one _ _ _ W1 H2) as [R W2]. pose proof (adds_one_by_one _ _ _ W2 H3) as A.
  rewrite flat_map_map in R. rewrite flat_map_map in A. exists t1, t2. auto.
Qed.

Section WithCrypto.
Context {C : crypto}.

Lemma processPath_checked g li path h t priv now h1 t1 th c priv1 k : shaped k (deref h t) ->
  processPath g li path h t priv now = Ok (h1, t1, th, c, priv1) ->
  path_checked (gc_cipherSuite (gr_context g)) (gc_groupID (gr_context g)) (deref h t) li path.
Proof.
  intros S H. destruct (processPath_checks _ _ _ _ _ _ _ _ _ _ _ _ _ S H) as (sn & Hsn & H1 & H2 & H3 & _).
  unfold processPath in H. cbv zeta in H. apply rbind_guard in H. destruct H as [Hs H].
  apply rbind_ok in H. destruct H as (sn' & _ & H). apply rbind_ok in H. destruct H as ([sk ek] & _ & H).
  destruct sn' as [sn'|]; [|discriminate]. apply rbind_ok in H. destruct H as (creds & Hc & H). apply rbind_ok in H. destruct H as ([] & Ev & _).
  unfold leafNodeVerify in Ev. apply rbind_ok in Ev. destruct Ev as (ok & Es & Ev). apply rbind_guard in Ev. destruct Ev as [-> Ev].
  apply rbind_guard in Ev. destruct Ev as [Hcr Ev]. apply rbind_guard in Ev. destruct Ev as [_ Ev]. apply rbind_guard in Ev. destruct Ev as [He _].
  cbn [vo_supportedCreds] in Hcr. unfold path_checked. cbv zeta. splits; auto.
  - now apply N.eqb_eq in Hs.
  - intros e Hin. rewrite forallb_forall in He. apply memN_In. auto.
  - intros Ho. apply memN_In in Hcr. destruct (supportedCreds_spec k (deref h t) S) as (creds' & E & P); auto; [now exists (designated li), sn|].
    rewrite Hc in E. apply Ok_inj in E. subst creds'. now apply P.
  - exists sn. auto.
Qed.

Theorem tree_after_commit g raw now ac c g' li ps : obtained g -> accepts_commit g raw now ac c g' ->
  fc_sender (ac_content ac) = SMember li -> commits g li c ps ->
  exists t, after_proposals (gr_value g) ps t /\
    match c_path c with
    | None => gr_value g' = t
    | Some up => path_checked (gc_cipherSuite (gr_context g)) (gc_groupID (gr_context g)) t li up /\
        exists k, shaped k t /\ shaped k (gr_value g') /\ merged (gc_cipherSuite (gr_context g)) k t (gr_value g') (designated li) up
    end.
Proof.
  intros Ob H Hs Hc. pose proof (obtained_sane _ Ob) as Sa. pose proof H as (_ & Hb & _).
  destruct (commit_tree _ _ _ _ _ _ _ _ Sa H Hs Hc) as (v & W & V & P).
  exists v. split; [now apply vapply_one_by_one; [apply Sa|]|].
  apply accepts_commit_inv in H. destruct H as [_ H]. apply processCommit_ok in H.
  destruct H as (c' & proposals & senders & h & t & Hb' & Hck & Ha & Hf). assert (c' = c) by congruence. subst c'. rewrite Hs in Hck. cbn [sender_leafIndex] in Hck.
  assert (Eps : proposals = map fst ps /\ senders = map snd ps).
  { unfold checkCommit in Hck. apply rbind_ok in Hck. destruct Hck as (ps' & E & Hck). apply (proj2 (resolveProposals_spec _ _ _ _)) in Hc. rewrite Hc in E. apply Ok_inj in E. subst ps'.
    cbv zeta in Hck. apply rbind_ok in Hck. destruct Hck as (? & _ & Hck). apply rbind_ok in Hck. destruct Hck as (? & _ & Hck). apply rbind_ok in Hck. destruct Hck as (? & _ & Hck).
    apply Ok_inj in Hck. apply pair_equal_spec in Hck. destruct Hck. auto. }
  destruct Eps as [-> ->]. destruct (applyH_value _ _ (map fst ps) (map snd ps) (proj1 (sane_consistent _ Sa))) as [V' _].
  rewrite Ha in V'. cbn [rmap] in V'. change (value (h, t)) with (deref h t) in V'. fold (gr_value g) in V'. rewrite V in V'. apply Ok_inj in V'. change (deref h t = v) in V'.
  destruct (c_path c) as [up|] eqn:Ep; [|assumption]. destruct P as (k & sn & Sk & Sk' & M & _). split; [|exists k; auto].
  destruct (finishCommit_ok _ _ _ _ _ _ _ _ _ Hf) as (priv & nh & h1 & t1 & th & cs & priv1 & ctx & it & psk & es & ini & _ & _ & Hp & _).
  rewrite Ep, Hs in Hp. cbn [sender_leafIndex] in Hp. rewrite <- V'. eapply processPath_checked; [|exact Hp]. rewrite V'. exact Sk.
Qed.
End WithCrypto.

(** ** The tree that a Welcome brings *)
Lemma findExtensionData_first exts t data : findExtensionData exts t = Some data ->
  exists pre post, exts = pre ++ mkExtension t data :: post /\ forall e, In e pre -> ext_type e <> t.
Proof.
  induction exts as [|e exts IH]; cbn [findExtensionData]; [discriminate|]. destruct (N.eqb_spec (ext_type e) t) as [E|E]; intros H.
  - injection H as <-. exists [], exts. split; [|intros e' []]. destruct e as [ty d]. cbn [ext_type ext_data app] in *. now subst.
  - destruct (IH H) as (pre & post & -> & P). exists (e :: pre), post. split; [reflexivity|]. intros e' [<-|H']; auto.
Qed.

Section Joining.
Context {C : crypto}.

Theorem tree_in_welcome w kpp now g : groupFromWelcome w kpp now = Ok g ->
  exists gi l n d, let_in w kpp g gi /\ brings_tree gi l /\
    gr_value g = l ++ repeat None n /\ lenN (gr_value g) + 1 = 2 ^ d /\ forall d', lenN l + 1 <= 2 ^ d' -> 2 ^ d <= 2 ^ d'.
Proof.
  intros H. apply groupFromWelcome_inv in H. destruct H as (ref & s & Eref & Es & Epsks & H). apply groupFromSecrets_inv in H.
  destruct H as (psk & gi & raw & t & signer & epoch & init & interim & me & priv & Epsk & Egi & Eraw & Et & Esg & Esig & Etag & Ecs & Ev & Eep & Ein & Eint & Eme & -> & priv0 & Ep0 & Ep).
  destruct (load t) as [h pt] eqn:El. destruct (load_value t h pt El) as (V & P & L). cbn [fst snd].
  apply unmarshal_ok in Et. destruct (ratchetTree_dec _ _ _ Et) as (l & e & d & He & Er & _ & E & Hd & Hmin & _).
  exists gi, l, (N.to_nat (2 ^ d - 1 - lenN l)), d. unfold gr_value. cbn [gr_heap gr_tree]. rewrite V. splits; auto.
  - eapply let_in_holds; eauto.
  - rewrite app_nil_r in Er. subst raw. rewrite (writes_vecOf _ _ l writes_optionalNode e He) in Eraw.
    destruct (findExtensionData_first _ _ _ Eraw) as (pre & post & E1 & E2). exists pre, post. auto.
  - intros d' Hle. destruct (N.le_gt_cases (2 ^ d) (2 ^ d')) as [|Hlt]; [assumption|]. specialize (Hmin d' Hlt). lia.
Qed.
End Joining.
