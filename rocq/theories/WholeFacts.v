(** The trees members send are the trees they have (C88). *)
From Verif Require Export SpecWhole.
From Verif Require Import TypesFacts CommitTreeFacts TreeOpFacts TreeFacts RemovedFacts ObtainedFacts GroupFacts FrameFacts AgreementFacts CrashFacts HoldFacts CodecFacts WelcomeFacts EpochFacts CreateFacts WireSpecFacts HistoryFacts SpecCodecFacts.

Lemma same_leaves_end t t' : length t' = length t -> (forall j, leaf_at t j <> None -> leaf_at t' j <> None) -> ends_with_member t -> ends_with_member t'.
Proof.
  intros E H [->|(j & Hj & Hl)]; [left; destruct t'; [reflexivity|discriminate]|]. right. exists j. split; [auto|]. unfold lenN in *. now rewrite E.
Qed.
Lemma shaped_length k t t' : shaped k t -> shaped k t' -> length t' = length t.
Proof. intros S S'. pose proof (proj2 (shaped_full _ _ S)) as H. pose proof (proj2 (shaped_full _ _ S')) as H'. unfold lenN in *. lia. Qed.
Lemma ends_updated t u t' : updated t u t' -> ends_with_member t -> ends_with_member t'.
Proof.
  intros (k & S & R) H. assert (Sh' : shaped k t') by (eapply replaced_shaped; eauto; intros n E; injection E as <-; eauto).
  destruct (replaced_leaf k t t' _ _ S Sh' R) as [H1 H2]. revert H. apply same_leaves_end; [eapply shaped_length; eauto|].
  intros j Hj. destruct (N.eq_dec j (fst u)) as [->|Hne]; [now rewrite H1|]. now rewrite H2.
Qed.
Lemma leaf_count_S k : leaf_count (S k) = 2 * leaf_count k.
Proof. unfold leaf_count. rewrite Nat2N.inj_succ, N.pow_succ_r'. reflexivity. Qed.
Lemma ends_removed t li t' : SpecCommitTree.removed t li t' -> ends_with_member t'.
Proof.
  intros (k & t1 & S & R & T). assert (S1 : shaped k t1) by (eapply replaced_shaped; eauto; intros; discriminate).
  pose proof (truncated_leaf k t1 t' S1 T) as L.
  destruct T as [[-> _]|(k' & Hk & F' & E & _ & j & Hj & Hn & Hmin)]; [now left|]. right. exists j. split.
  - rewrite L. apply leaf_count_le in Hk. rewrite (shaped_leaf k) in Hn by (auto; lia). intros En. rewrite En in Hn. now apply Hn.
  - rewrite (proj2 F'). rewrite node_leaf_count. destruct k' as [|k']; [change (leaf_count 0) with 1; lia|]. rewrite leaf_count_S. specialize (Hmin k' (Nat.lt_succ_diag_r k')). lia.
Qed.
Lemma ends_joined t l t' : SpecCommitTree.joined t l t' -> ends_with_member t -> ends_with_member t'.
Proof.
  intros (k & t0 & li & [Hf _] & S & A & G) H. destruct (added_leaf k t0 t' li l S A) as [H1 H2]. pose proof (shaped_length k t0 t' S (proj1 A)) as El.
  destruct G as [->|[-> G]].
  - revert H. apply same_leaves_end; [exact El|]. intros j Hj. destruct (N.eq_dec j li) as [->|Hne]; [now rewrite H1|]. now rewrite H2.
  - right. exists li. split; [now rewrite H1|]. unfold lenN. rewrite El. unfold grown. rewrite app_length, repeat_length.
    assert (~ 2 * li < lenN t) by (intros Hlt; now apply (G li Hlt)). unfold lenN in *. lia.
Qed.
Lemma ends_one_by_one {X} (R : ratchetTree -> X -> ratchetTree -> Prop) : (forall t x t', R t x t' -> ends_with_member t -> ends_with_member t') ->
  forall t l t', one_by_one R t l t' -> ends_with_member t -> ends_with_member t'.
Proof. intros H t l t' O. induction O; eauto. Qed.
Lemma ends_after t ps t' : after_proposals t ps t' -> ends_with_member t -> ends_with_member t'.
Proof.
  intros (t1 & t2 & U & R & J) H. eapply (ends_one_by_one SpecCommitTree.joined); [exact ends_joined|exact J|].
  eapply (ends_one_by_one SpecCommitTree.removed); [intros t0 x t0' Hr _; eapply ends_removed; exact Hr|exact R|].
  eapply (ends_one_by_one updated); [exact ends_updated|exact U|exact H].
Qed.
Lemma ends_same t t' : same_but_unmerged t t' -> ends_with_member t -> ends_with_member t'.
Proof. intros S. apply same_leaves_end; [exact (same_but_unmerged_length _ _ S)|]. intros j. now rewrite (same_leaf _ _ _ S). Qed.

Section WithCrypto.
Context {C : crypto}.
Lemma ends_merged cs k t t' li up : shaped k t -> shaped k t' -> merged cs k t t' li up -> ends_with_member t -> ends_with_member t'.
Proof.
  intros S S' M. destruct (merged_leaf _ _ _ _ _ _ S S' M) as [E1 E2]. apply same_leaves_end; [eapply shaped_length; eauto|].
  intros j Hj. destruct (N.eq_dec j li) as [->|Hne]; [now rewrite E1|]. now rewrite E2.
Qed.
Theorem created_ends gid kpp rnd g : createGroup gid kpp rnd = Ok g -> ends_with_member (gr_value g).
Proof.
  intros H. unfold createGroup in H. cbv zeta in H. rewrite first_leaf in H. cbn [rbind] in H.
  apply rbind_ok in H as (th & _ & H). apply rbind_ok in H as (d & _ & H). apply rbind_ok in H as (tag & _ & H).
  apply rbind_ok in H as (interim & _ & H). apply rbind_ok in H as (psk & _ & H). apply rbind_ok in H as (ini & _ & H). apply Ok_inj in H. subst g.
  right. exists 0. split; [discriminate|]. vm_compute. discriminate.
Qed.
Lemma heap_ends g ps ss h t : sane g -> applyH (gr_heap g) (gr_tree g) ps ss = Ok (h, t) -> ends_with_member (gr_value g) -> ends_with_member (gr_value (withHeap g h)).
Proof.
  intros Sa Ha. apply ends_same. unfold gr_value, withHeap. cbn [gr_heap gr_tree].
  apply extends_value; [exact (proj1 (proj1 (sane_consistent _ Sa)))|]. eapply applyH_extends; eauto.
Qed.
Lemma commit_ends g ac now g' r : sane g -> processCommit g ac [] [] now = (g', r) -> ends_with_member (gr_value g) -> ends_with_member (gr_value g').
Proof.
  intros Sa H I. unfold processCommit in H. destruct (fc_body (ac_content ac)) as [?|?|c] eqn:Eb; try (assert (g' = g) as -> by congruence; exact I).
  destruct (checkCommit _ _ _) as [[ps ss]|?|?|] eqn:Eck; try (assert (g' = g) as -> by congruence; exact I).
  destruct (applyH _ _ _ _) as [[h t]|?|?|] eqn:Ea; try (assert (g' = g) as -> by congruence; exact I).
  destruct (finishCommit _ _ _ _ _ _ _ _) as [g1|?|?|] eqn:Ef; try (assert (g' = g) as -> by congruence; exact I).
  2: { assert (g' = withHeap g h) as -> by congruence. eapply heap_ends; eauto. }
  assert (g1 = g') as -> by congruence. clear H.
  destruct (checkCommit_pairs _ _ _ _ _ Eck) as (l & Hc & -> & -> & _).
  pose proof (proj1 (sane_consistent _ Sa)) as Pr. destruct (applyH_value_ok _ _ _ _ _ _ Pr Ea) as [V P1]. fold (gr_value g) in V.
  pose proof (vapply_shape _ _ _ _ (sane_shape _ Sa) V) as W1. apply (vapply_one_by_one _ _ _ (sane_shape _ Sa)) in V.
  pose proof (ends_after _ _ _ V I) as I1.
  apply finishCommit_ok in Ef as (priv & nh & h1 & t1 & th & cs & priv1 & ctx & interim & psk & ep & ini & _ & _ & Hp & _ & ->).
  unfold gr_value. cbn [gr_heap gr_tree]. destruct (c_path c) as [up|].
  - apply processPath_all in Hp as (Hm & _). destruct W1 as [W1|(k & Sh)].
    { exfalso. unfold mergeUpdatePathH in Hm. apply rbind_ok in Hm as (v & Hm & _). rewrite W1 in Hm. now apply merge_nil in Hm. }
    destruct (mergeH_shaped _ _ _ _ _ _ _ _ P1 Sh Hm) as [Sh' M]. exact (ends_merged _ _ _ _ _ _ Sh Sh' M I1).
  - destruct Hp as (-> & -> & _). exact I1.
Qed.
Theorem message_ends g raw now g' r : obtained g -> unmarshalAndProcessMessage g raw now = (g', r) -> ends_with_member (gr_value g) -> ends_with_member (gr_value g').
Proof.
  intros O H I. apply obtained_sane in O. apply acted_on_or in H. destruct H as [[-> _]|(ac & Hca & Hau & _ & H)]; [exact I|].
  destruct (fc_body (ac_content ac)) as [d|p|c] eqn:Eb.
  - destruct H as (-> & _). exact I.
  - unfold noData, processProposal in H. rewrite Eb in H. destruct (generateProposalRef _ _) as [ref|?|?|]; cbn [fst snd rmap] in H; try (assert (g' = g) as -> by congruence; exact I).
    apply pair_equal_spec in H. destruct H as [-> _]. exact I.
  - unfold noData in H. destruct (processCommit g ac [] [] now) as [g1 r1] eqn:E. cbn [fst snd] in H. apply pair_equal_spec in H. destruct H as [-> _]. eapply commit_ends; eauto.
Qed.
Theorem invitation_ends g kps rs ri rh rg g' r : obtained g -> createWelcome g kps rs ri rh rg = (g', r) -> ends_with_member (gr_value g) -> ends_with_member (gr_value g').
Proof.
  intros O H I. unfold createWelcome in H. destruct kps as [|k0 kps0]; [apply pair_equal_spec in H; now destruct H as [<- _]|].
  destruct (applyH _ _ _ _) as [[h t]|?|?|] eqn:Ea; try (apply pair_equal_spec in H; now destruct H as [<- _]).
  assert (E : g' = withHeap g h) by congruence. subst g'. eapply heap_ends; eauto. now apply obtained_sane.
Qed.

(** ** Encoding *)
Lemma whole_wf t : well_shaped t -> wf_nodes t -> ends_with_member t -> wf_ratchetTree t.
Proof.
  intros W H E. split; [exact H|]. destruct W as [->|(k & S)]; [now left|]. right. exists (N.of_nat k). pose proof (shaped_full _ _ S) as F.
  rewrite (proj2 F), node_leaf_count. split; [reflexivity|]. destruct E as [->|(j & Hj & Hl)]; [destruct F as [_ F]; rewrite node_leaf_count in F; change (lenN (@nil (option node))) with 0 in F|].
  - pose proof (N.pow_nonzero 2 (N.of_nat k)). unfold leaf_count in F. lia.
  - destruct (leaf_at t j) as [l|] eqn:El; [|easy]. exists (N.to_nat (2 * j)), (NLeaf l). split; [now apply leaf_index|].
    rewrite (proj2 F), node_leaf_count in Hl. unfold leaf_count in Hl. lia.
Qed.
Theorem whole_tree_sent g raw : lawful g -> ends_with_member (gr_value g) -> putRatchetTree (gr_value g) = Ok raw ->
  unmarshal getRatchetTree raw = Ok (gr_value g).
Proof.
  intros L E. apply ratchetTree_roundtrip. apply whole_wf; [apply (sane_shape _ (obtained_sane _ (lawful_obtained _ L)))|apply (lawful_holds _ L)|exact E].
Qed.
Theorem whole_tree_invited g kps rs ri rh rg g1 w raw : crypto_ok C -> lawful g -> ends_with_member (gr_value g) -> Forall wf_keyPackage kps ->
  createWelcome g kps rs ri rh rg = (g1, Ok (w, raw)) -> sends_tree g kps w.
Proof.
  intros HC L En Wk H. pose proof (obtained_sane _ (lawful_obtained _ L)) as Sa.
  destruct (createWelcome_parts _ _ _ _ _ _ _ _ _ HC (proj1 (sane_consistent _ Sa)) H) as (Hne & _ & e & sig & tag & joiner & X).
  destruct X as [Ht _ (th & confirmed & Hth & _ & Hctx & _) _ Hpsk _ _ _ _ (rt & gi & egi & secrets & Hrt & Hgi & Hegi & _ & Hw)].
  pose proof (sane_shape _ Sa) as Ws. pose proof (vapply_shape _ _ _ _ Ws Ht) as Ws'.
  destruct (shaped_hash _ _ _ Ws' Hth) as (k' & Sh' & Eth). apply nopsk_only in Hpsk.
  apply info_sign_rfc in Hgi as (infoSig & _ & ->). apply info_rfc in Hegi. cbn [gi_groupContext gi_extensions gi_confirmationTag gi_signer] in *.
  set (ps := map (fun k => (PAdd k, gr_myLeafIndex g)) kps).
  assert (P1 : map fst ps = map PAdd kps) by (unfold ps; now rewrite map_map).
  assert (P2 : additionsOf ps = map kp_leafNode kps) by (unfold ps, additionsOf; clear; induction kps as [|k kps IH]; cbn; congruence).
  assert (P3 : updatesOf ps = [] /\ removalsOf ps = []) by (unfold ps, updatesOf, removalsOf; clear; induction kps as [|k kps IH]; cbn; auto).
  destruct P3 as [P3 P4].
  assert (AP : after_proposals (gr_value g) ps (ed_tree e)). { apply vapply_one_by_one; [exact Ws|]. rewrite P1, adds_only, <- (adds_only _ _ [gr_myLeafIndex g]). exact Ht. }
  assert (Wt : wf_nodes (ed_tree e)).
  { destruct AP as (t1 & t2 & A1 & A2 & A3). rewrite P3 in A1. rewrite P4 in A2. rewrite P2 in A3. inversion A1; subst. inversion A2; subst. eapply joined_wf; [|apply (lawful_holds _ L)|exact A3].
    apply Forall_forall. intros l Hl. apply in_map_iff in Hl. destruct Hl as (k & <- & Hin). rewrite Forall_forall in Wk. apply Wk in Hin. apply Hin. }
  pose proof (writes_ratchetTree _ _ Hrt) as Er. subst rt.
  exists k', (ed_tree e), (ed_context e), joiner, tag, infoSig. cbv zeta. splits.
  - subst w. cbn [w_encryptedGroupInfo]. rewrite Hegi. rewrite Hctx, Hpsk. reflexivity.
  - exact Sh'.
  - rewrite Hctx. cbn [nextContext gc_treeHash]. exact Eth.
  - exact AP.
  - apply (ratchetTree_roundtrip _ _ (whole_wf _ Ws' Wt (ends_after _ _ _ AP En)) Hrt).
Qed.
End WithCrypto.
