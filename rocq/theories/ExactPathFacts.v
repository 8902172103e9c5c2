(** Exactly which commits with an update path are accepted. *)
From Verif Require Export ExactFacts SpecExactPath ReadsFacts.
From Verif Require Import TreeOpFacts CommitTreeFacts RemovedFacts.

Section WithCrypto.
Context {C : crypto}.

Lemma old_context_short ctx th : lenN (enc_groupContext ctx) < 2 ^ 27 -> lenN th <= 64 -> short (enc_groupContext (nextContext ctx th (gc_confirmedTranscriptHash ctx))).
Proof.
  intros H H1. unfold short, enc_groupContext, nextContext in *. cbn [gc_version gc_cipherSuite gc_groupID gc_epoch gc_treeHash gc_confirmedTranscriptHash gc_extensions] in *.
  rewrite !lenN_app, !lenN_num in *. pose proof (vec_len_le th). lia.
Qed.
Lemma short_context_fits ctx : short (enc_groupContext ctx) -> context_fits ctx.
Proof.
  intros Z. exists (enc_groupContext ctx), (enc_labelled (str "UpdatePathNode") (enc_groupContext ctx)). split; [apply fills_groupContext; unfold short in Z; lia|].
  apply fills_labelled. unfold short in *. unfold enc_labelled. rewrite lenN_app. pose proof (vec_len_le (enc_groupContext ctx)).
  assert (Ev : lenN (vec (str "MLS 1.0 " ++ str "UpdatePathNode")) < 100) by (vm_compute; reflexivity). lia.
Qed.
Lemma opaque_fits v e : writeOpaqueVec v = Ok e -> lenN v < 2 ^ 30.
Proof.
  unfold writeOpaqueVec. destruct (2 ^ 32 <=? lenN v); [discriminate|]. intros H. apply wapp_ok in H. destruct H as (x & y & H & _ & _). revert H. unfold writeVarint.
  rewrite !N.shiftl_1_l. pose proof (N.pow_lt_mono_r 2 6 30 ltac:(lia) ltac:(lia)). pose proof (N.pow_lt_mono_r 2 14 30 ltac:(lia) ltac:(lia)).
  destruct (N.ltb_spec (lenN v) (2 ^ 6)); [intros _; eapply N.lt_trans; eassumption|]. destruct (N.ltb_spec (lenN v) (2 ^ 14)); [intros _; eapply N.lt_trans; eassumption|].
  destruct (N.ltb_spec (lenN v) (2 ^ 30)); [auto|discriminate].
Qed.
Lemma linked_fits cs k t : encodable t -> forall l nodes h, linked cs k t l nodes h -> Forall (fun u => lenN (upn_encryptionKey u) < 2 ^ 30) nodes.
Proof.
  intros En. induction l as [|[a s] l IH]; intros [|u nodes] h H; cbn [linked] in H; try easy.
  destruct H as (h' & Ha & _ & H). constructor; [|eapply IH; eauto].
  destruct (En (NParent (mkParentNode (upn_encryptionKey u) h' []))) as (e & He).
  { unfold at_path in Ha. destruct (nth_error t _) as [o|] eqn:E; [|discriminate]. subst o. eapply nth_error_In. exact E. }
  cbn [putNode] in He. unfold putParentNode in He. cbn [pn_encryptionKey pn_parentHash pn_unmergedLeaves] in He. unwapp. eapply opaque_fits; eassumption.
Qed.

Lemma path_accepts_all g ps li up k t t' z h pt now priv : crypto_ok C -> obtained g -> known_suite (gc_cipherSuite (gr_context g)) -> wf_leafNode (up_leafNode up) ->
  lenN (enc_groupContext (gr_context g)) < 2 ^ 27 ->
  acceptable_path g ps li up k t t' z -> encodable t -> lists_once t -> lists_below t ->
  proper h pt -> deref h pt = t -> carryPriv (length (gr_tree g)) (length pt) (gr_privTree g) = Ok priv ->
  exists h1 t1 p1, processPath g li up h pt priv now = Ok (h1, t1, tree_hash (gc_cipherSuite (gr_context g)) k t' [] k [], z, p1) /\ deref h1 t1 = t'.
Proof.
  intros OK O Kn Wl Zc V En Lo LB Pr D Ecp. pose proof Kn as (d & Hd). pose proof (obtained_sane g O) as Sa. pose proof (obtained_state g O) as Mg.
  destruct V as [AP Sh Sh' Ck Mgd En' Rd].
  pose proof Ck as (P1 & _ & _ & _ & (m & Hm & _) & P6).
  unfold processPath. cbv zeta. rewrite D. rewrite P1. change (3 =? leafNodeSourceCommit) with true. cbn [guard rbind].
  assert (Hli : designated li < leaf_count k) by (eapply member_in_array; [exact Sh|congruence]).
  assert (Hg : getLeaf t li = Ok (Some m)).
  { replace (getLeaf t li) with (getLeaf t (designated li)); [rewrite (getLeaf_at k) by assumption; now rewrite Hm|].
    unfold getLeaf. now rewrite (nodeIndexOf_designated li), (nodeIndexOf_designated (designated li)), (designated_small (designated li)) by apply designated_lt. }
  rewrite Hg. cbn [rbind]. rewrite (treeKeys_ok k) by assumption. cbn [rbind].
  destruct (leaf_accepts _ _ t li up k m _ Sh Lo Hm Wl eq_refl Ck) as (creds & Ec & Hv). rewrite Ec. cbn [rbind]. rewrite Hv. cbn [rbind].
  assert (Ef : forallb (fun n => negb (memB (upn_encryptionKey n) (map (fun p => ln_encryptionKey (snd p)) (allLeaves t)))) (up_nodes up) = true).
  { apply forallb_forall. intros n Hn. apply negb_true_iff, memB_false. intros H. apply in_map_iff in H. destruct H as ([j l] & E & H). apply (allLeaves_In k) in H; [|apply shaped_full; exact Sh].
    cbn [snd] in E. apply (P6 (upn_encryptionKey n) j l); [right; now apply in_map|exact H|exact E]. }
  rewrite Ef. cbn [guard rbind].
  assert (Ep : encodable_path up) by (destruct Mgd as (_ & _ & _ & L & _); eapply linked_fits; [exact En'|exact L]).
  destruct (mergeH_complete (gc_cipherSuite (gr_context g)) d k h pt li up t' OK) as (h1 & t1 & Em & E1); auto; [now rewrite <- suite_eq|now rewrite D|now rewrite D|now rewrite D|]. rewrite Em. cbn [rbind]. rewrite E1.
  rewrite (rootTreeHash_complete k _ t' d Sh' OK En') by now rewrite <- suite_eq. cbn [rbind].
  pose proof (shaped_full _ _ Sh') as F'.
  assert (Lb : lists_in_tree k t').
  { intros q pn u Hq Hn Hu. exact (proj1 (proj1 (lists_paths k _ F') (merged_lists _ k t t' _ up Sh Mgd LB) q pn u Hq Hn Hu)). }
  assert (Lp : length priv = length t').
  { pose proof (carryPriv_len _ _ _ _ Ecp) as L. rewrite L, <- E1. unfold deref. rewrite map_length. symmetry. exact (mergeH_length _ _ _ _ _ _ _ Em). }
  pose proof F' as [Hk Ht]. assert (Fp : full k priv) by (split; [exact Hk|]; unfold lenN in *; now rewrite Lp).
  assert (At : forall q, in_tree k q -> at_path k (gr_privTree g) q = at_path k priv q).
  { intros q Hq. symmetry. apply (carried_at _ _ _ _ k q Ecp (proj2 (sane_consistent _ Sa))). pose proof (number_lt k q Hq). pose proof (carryPriv_len _ _ _ _ Ecp) as L. unfold lenN in Ht. lia. }
  assert (Cf : context_fits (nextContext (gr_context g) (tree_hash (gc_cipherSuite (gr_context g)) k t' [] k []) (gc_confirmedTranscriptHash (gr_context g)))).
  { apply short_context_fits, old_context_short; [exact Zc|now apply tree_hash_small]. }
  apply (reads_keys _ _ _ _ _ _ _ _ _ _ At) in Rd.
  apply (reads_iff (gc_cipherSuite (gr_context g)) k t' _ li (gr_myLeafIndex g) up priv Kn Cf Sh' Lb Fp Hli (ms_index _ Mg)) in Rd. destruct Rd as (p' & Ed).
  change (next_context ?a ?b ?c) with (nextContext a b c) in Ed. rewrite Ed. cbn [rbind]. eauto 10.
Qed.

Theorem path_acceptable_accepted g raw ac c up li ps k t t' z now : crypto_ok C -> obtained g -> known_suite (gc_cipherSuite (gr_context g)) ->
  received g raw ac -> acceptable_commit g ac c li ps -> c_path c = Some up -> acceptable_path g ps li up k t t' z -> encodable t -> lists_once t ->
  exists g', unmarshalAndProcessMessage g raw now = (g', Ok None) /\ gr_value g' = t'.
Proof.
  intros OK O Kn R V Ep T En Lo. pose proof (ac_body _ _ _ _ _ V) as Hb. pose proof (ac_sender _ _ _ _ _ V) as Hs.
  rewrite (received_commit _ _ _ _ now Kn R Hb). destruct (carries_wf _ _ _ (rc_carries _ _ _ R)) as [Wf _].
  assert (Wc : wf_commit c). { unfold wf_framedContent in Wf. rewrite Hb in Wf. apply Wf. }
  pose proof (obtained_sane g O) as Sa. pose proof (sane_shape _ Sa) as W0.
  pose proof (vapply_complete _ _ _ W0 (ap_tree _ _ _ _ _ _ _ _ T)) as Ev. pose proof (proj1 (sane_consistent _ Sa)) as Pr0. unfold gr_value in Ev.
  destruct (applyH_of_value _ _ _ _ _ Pr0 Ev) as (h & pt & Ea & Dv & Pr). destruct (apply_lists _ _ _ _ _ _ Pr0 W0 (ms_lists _ (obtained_state g O)) Ea) as [_ LB]. rewrite Dv in LB.
  destruct (carryPriv_ok (length (gr_tree g)) (length pt) (gr_privTree g) (proj2 (sane_consistent _ Sa))) as (p & Ecp & _).
  assert (Wl : wf_leafNode (up_leafNode up)) by (unfold wf_commit in Wc; rewrite Ep in Wc; apply Wc).
  pose proof (size_parts _ _ _ R) as (_ & _ & Zc & _).
  assert (F : exists g', finishCommit g ac c h pt [] [] now = Ok g' /\ gr_value g' = t').
  { unfold finishCommit. cbv zeta. rewrite Ecp. cbn [rbind]. rewrite (proj2 (gives_extractSize _) Kn). cbn [rbind]. rewrite Ep, Hs. cbn [sender_leafIndex].
    destruct (path_accepts_all g ps li up k t t' z h pt now p OK O Kn Wl Zc T En Lo LB Pr Dv Ecp) as (h1 & t1 & p1 & Epp & E1).
    rewrite Epp. cbn [rbind].
    destruct (epoch_accepts g raw ac c (tree_hash (gc_cipherSuite (gr_context g)) k t' [] k []) z OK Kn R Hb (tree_hash_small _ _ _ OK)) as ([[[[x1 x2] x3] x4] x5] & ->).
    cbn [rbind]. eexists. split; [reflexivity|exact E1]. }
  destruct F as (g' & Hf & Hv). exists g'. split; [|exact Hv]. unfold processCommit. rewrite Hb, Hs. cbn [sender_leafIndex].
  rewrite (check_accepts_all _ _ _ _ _ O Wc V), Ea, Hf. reflexivity.
Qed.

Lemma accepted_tree_hash g raw now ac c up g' : obtained g -> accepts_commit g raw now ac c g' -> c_path c = Some up ->
  exists h, computeRootTreeHash (gc_cipherSuite (gr_context g)) (gr_value g') = Ok h /\ gc_treeHash (gr_context g') = h.
Proof.
  intros O A Hup. pose proof (accepts_commit_inv _ _ _ _ _ _ A) as [_ Ep]. pose proof A as (_ & Hb & _).
  apply processCommit_ok in Ep. destruct Ep as (c' & proposals & senders & h & t & Hb' & Hck & Ha & Hf). assert (c' = c) by congruence. subst c'.
  destruct (finishCommit_ok _ _ _ _ _ _ _ _ _ Hf) as (priv & nh & h1 & t1 & th & z & priv1 & ctx & it & psk & es & ini & Ec & Enh & Hpp & Hne & Eg').
  rewrite Hup in Hpp. apply processPath_all in Hpp. destruct Hpp as (Hm & Hth & Hd). exists th. rewrite Eg'. split; [exact Hth|].
  cbn [gr_context]. destruct (nextEpoch_ok _ _ _ _ _ _ _ _ _ _ _ Hne) as (co & jo & _ & -> & _). reflexivity.
Qed.
Lemma accepted_path g raw now ac c up g' : obtained g -> accepts_commit g raw now ac c g' -> c_path c = Some up ->
  exists li ps k t z, acceptable_commit g ac c li ps /\ acceptable_path g ps li up k t (gr_value g') z.
Proof.
  intros O A Ep. destruct (accepted_acceptable _ _ _ _ _ _ O A) as (_ & _ & li & ps & t & V & AP & P). rewrite Ep in P.
  pose proof (ac_sender _ _ _ _ _ V) as Hs. destruct (tree_after_commit _ _ _ _ _ _ _ _ O A Hs (ac_proposals _ _ _ _ _ V)) as (t0 & AP0 & P0).
  rewrite (after_proposals_fun _ _ _ _ AP0 AP) in P0. rewrite Ep in P0. destruct P0 as (_ & k & Sh & Sh' & M).
  destruct (path_read _ _ _ _ _ _ _ _ O A Ep Hs) as (z & k' & Shk & Rd). rewrite (height_unique k' k _ (shaped_full _ _ Shk) (shaped_full _ _ Sh')) in Rd.
  destruct (accepted_tree_hash g raw now ac c up g' O A Ep) as (h & Hh & Eh). destruct (rootTreeHash_sound k _ _ _ Sh' Hh) as [_ E2].
  exists li, ps, k, t, z. split; [exact V|]. constructor; auto.
  - exact (rootTreeHash_encodes _ _ _ _ Sh' Hh).
  - rewrite <- E2, <- Eh. exact Rd.
Qed.

Theorem path_commits_accepted_iff g raw ac c up now : crypto_ok C -> obtained g -> known_suite (gc_cipherSuite (gr_context g)) ->
  carries g raw ac -> modest g ac -> fc_body (ac_content ac) = BCommit c -> c_path c = Some up -> tame g c ->
  ((exists g' r, unmarshalAndProcessMessage g raw now = (g', Ok r)) <->
   authentic g ac /\ tagged g raw /\ exists li ps k t t' z, acceptable_commit g ac c li ps /\ acceptable_path g ps li up k t t' z).
Proof.
  intros OK O Kn Hc Hm Hb Ep Tm. split.
  - intros (g' & r & H). assert (r = None) as ->.
    { destruct (acted_on_or _ _ _ _ _ H) as [[_ []]|(ac' & Hc' & _ & _ & Hx)]. assert (ac' = ac) by (eapply carries_fun; eauto). subst ac'. rewrite Hb in Hx.
      unfold noData in Hx. destruct (processCommit g ac [] [] now) as [g1 [[]| | |]]; cbn in Hx; congruence. }
    assert (A : accepts_commit g raw now ac c g') by exact (conj Hc (conj Hb H)).
    destruct (accepted_acceptable g raw now ac c g' O A) as (A1 & A2 & _). split; [exact A1|]. split; [exact A2|].
    destruct (accepted_path _ _ _ _ _ _ _ O A Ep) as (li & ps & k & t & z & V & P). exists li, ps, k, t, (gr_value g'), z. auto.
  - intros (Au & Ht & li & ps & k & t & t' & z & V & P). destruct (Tm _ _ _ (ac_proposals _ _ _ _ _ V) (ap_tree _ _ _ _ _ _ _ _ P)) as [En Lo].
    destruct (path_acceptable_accepted g raw ac c up li ps k t t' z now OK O Kn) as (g' & H & _); auto; [constructor; auto|]. eauto.
Qed.
End WithCrypto.
