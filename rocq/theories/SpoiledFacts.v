(** Proofs about groups that nobody can join (C121). *)
From Verif Require Export SpecSpoiled OwnLeafFacts JoinFacts.
From Verif Require Import TypesFacts CommitTreeFacts TreeOpFacts TreeFacts RemovedFacts ObtainedFacts GroupFacts FrameFacts AgreementFacts CrashFacts HoldFacts CodecFacts WelcomeFacts EpochFacts CreateFacts WireSpecFacts SpecCodecFacts IntegrityFacts OutcomeFacts WholeFacts HistoryFacts FoundFacts ExactJoinFacts.
From Coq Require Import Lia.

Lemma vapply_removed t l t' i l' : well_shaped t -> vapply t (map fst l) (map snd l) = Ok t' -> In i (removalsOf l) -> leaf_at t' i = Some l' -> In l' (additionsOf l).
Proof.
  intros W H Hr Hl. rewrite vapply_eq, updates_eq in H. apply rbind_ok in H. destruct H as (t1 & H1 & H).
  apply rbind_ok in H. destruct H as (t2 & H2 & H3).
  assert (W1 : well_shaped t1).
  { revert H1. apply (foldM_inv _ well_shaped); [|exact W]. intros s [p sd] s' _ Ws E. unfold updPair in E. cbn [fst snd] in E.
    destruct p; try (apply Ok_inj in E; subst; exact Ws). now destruct (update_members _ _ _ _ Ws E). }
  destruct (removes_members _ _ _ W1 H2) as [W2 R]. specialize (R i). rewrite flat_map_map in R. change (flat_map _ l) with (removalsOf l) in R.
  rewrite (proj2 (memN_In i (removalsOf l)) Hr) in R.
  assert (A : well_shaped t' /\ forall m, leaf_at t' i = Some m -> leaf_at t2 i = Some m \/ In m (additionsOf l)).
  { revert H3. apply (foldM_inv _ (fun x => well_shaped x /\ forall m, leaf_at x i = Some m -> leaf_at t2 i = Some m \/ In m (additionsOf l))); [|auto].
    intros s p s' Hin [Ws IH] E. unfold addStep in E. destruct p; try (apply Ok_inj in E; subst; auto; fail).
    destruct (add_members _ _ _ Ws E) as (W' & j & Hf & E1 & E2). split; [assumption|]. intros m Hm. destruct (N.eq_dec i j) as [->|Hne].
    - right. assert (m = kp_leafNode kp) by congruence. subst m. apply in_map_iff in Hin. destruct Hin as ([p s0] & Ep & Hin). cbn [fst] in Ep. subst p.
      unfold additionsOf. apply in_flat_map. exists (PAdd kp, s0). split; [exact Hin|now left].
    - apply IH. now rewrite <- E2. }
  destruct A as [_ A]. destruct (A _ Hl) as [G|G]; [congruence|exact G].
Qed.


Lemma all_joined_there ls : forall t t' l, one_by_one SpecCommitTree.joined t ls t' -> In l ls -> exists i, leaf_at t' i = Some l.
Proof.
  intros t t' l H. induction H as [|t0 x t1 ls t2 J R IH]; intros Hin; [destruct Hin|]. destruct Hin as [->|Hin]; [|now apply IH].
  destruct J as (k & t3 & i & _ & Sh & A & _). exists i. eapply all_joined_keep_leaf; [exact R|]. now destruct (added_leaf k t3 t1 i l Sh A).
Qed.

Section WithCrypto.
Context {C : crypto}.
Theorem nobody_joins m i w kpp now j : unsigned_leaf m i -> later_than_1970 now -> groupFromWelcome w kpp now = Ok j -> ~ agree m j.
Proof.
  intros (l & Hl & Hs) Hn H (A1 & A2 & _). destruct (JoinFacts.joined _ _ _ _ Hn H) as (gi & k & signer & _ & _ & _ & _ & _ & (_ & _ & _ & I & _) & _).
  rewrite A1, A2 in I. apply Hs. exact (proj1 (I _ _ Hl)).
Qed.
Theorem removal_heals g raw now ac c g' li ps i l' : obtained g -> accepts_commit g raw now ac c g' -> fc_sender (ac_content ac) = SMember li -> commits g li c ps ->
  In i (removalsOf ps) -> i <> designated li -> leaf_at (gr_value g') i = Some l' -> In l' (additionsOf ps).
Proof.
  intros O A Hs Hc Hr Hn Hl. pose proof (obtained_sane _ O) as Sa.
  destruct (commit_tree _ _ _ _ _ _ _ _ Sa A Hs Hc) as (v & W & V & P). apply (vapply_removed _ _ _ _ _ (sane_shape _ Sa) V Hr).
  destruct (c_path c) as [up|]; [|now rewrite <- P]. destruct P as (k & sg & S1 & S2 & M & _). destruct (merged_leaf _ _ _ _ _ _ S1 S2 M) as [_ M2]. now rewrite <- M2.
Qed.
Theorem invited_join_iff g kps rs ri rh rg g1 w raw kpp now : crypto_ok C -> lawful g -> ends_with_member (gr_value g) -> Forall wf_keyPackage kps ->
  createWelcome g kps rs ri rh rg = (g1, Ok (w, raw)) -> NoDup (welcomeNewMembers w) -> In (kpp_public kpp) kps ->
  holds_private_keys kpp -> kp_cipherSuite (kpp_public kpp) = gc_cipherSuite (gr_context g) -> later_than_1970 now -> can_sign g ->
  exists k t ctx, invited_tree g kps k t ctx /\ 
    (lists_once t -> ((exists j, groupFromWelcome w kpp now = Ok j) <-> valid_members k t ctx now)) /\
    (forall j, groupFromWelcome w kpp now = Ok j -> gr_value j = t /\ gr_context j = ctx).
Proof.
  intros HC L En Wk H Nd Hin (d & Hd & Hik & _ & _) Hkcs Hnow Cs. pose proof (obtained_sane _ (lawful_obtained _ L)) as Sa.
  destruct (createWelcome_parts _ _ _ _ _ _ _ _ _ HC (proj1 (sane_consistent _ Sa)) H) as (Hne & _ & e & sig & tag & joiner & X).
  destruct X as [Ht _ (th & confirmed & Hth & _ & Hctx & Hint) _ Hpsk Hes Htag Hini _ (rt & gi & egi & secrets & Hrt & Hgi & Hegi & Hsec & ->)].
  pose proof (sane_shape _ Sa) as Ws. pose proof (vapply_shape _ _ _ _ Ws Ht) as Ws'.
  set (ps := map (fun k => (PAdd k, gr_myLeafIndex g)) kps).
  assert (P1 : map fst ps = map PAdd kps) by (unfold ps; now rewrite map_map).
  assert (P2 : additionsOf ps = map kp_leafNode kps) by (unfold ps, additionsOf; clear; induction kps as [|k kps IH]; cbn; congruence).
  assert (P3 : updatesOf ps = [] /\ removalsOf ps = []) by (unfold ps, updatesOf, removalsOf; clear; induction kps as [|k kps IH]; cbn; auto).
  destruct P3 as [P3 P4].
  assert (AP : after_proposals (gr_value g) ps (ed_tree e)). { apply vapply_one_by_one; [exact Ws|]. rewrite P1, adds_only, <- (adds_only _ _ [gr_myLeafIndex g]). exact Ht. }
  pose proof (ends_after _ _ _ AP En) as En'.
  pose proof AP as AP0. destruct AP as (t1 & t2 & A1 & A2 & A3). rewrite P3 in A1. rewrite P4 in A2. rewrite P2 in A3. inversion A1; subst t1. inversion A2; subst t2.
  assert (Wt : wf_nodes (ed_tree e)).
  { eapply CreateFacts.joined_wf; [|apply (lawful_holds _ L)|exact A3].
    apply Forall_forall. intros l Hl. apply in_map_iff in Hl. destruct Hl as (k & <- & Hi). rewrite Forall_forall in Wk. apply Wk in Hi. apply Hi. }
  assert (Htree : unmarshal getRatchetTree rt = Ok (ed_tree e)) by exact (ratchetTree_roundtrip _ _ (whole_wf _ Ws' Wt En') Hrt).
  rewrite Hkcs in Hd. unfold welcomeNewMembers in Nd. cbn [w_secrets] in Nd.
  destruct (secret_opened _ d (mkGroupSecrets joiner None []) egi kps (kpp_public kpp) (kpp_initKey kpp) Hd ltac:(constructor) Hik rh secrets Hsec Nd Hin) as (ref & Href & Hdec).
  unfold groupInfoSign in Hgi. apply rbind_ok in Hgi. destruct Hgi as (tbs & Htbs & Hgi). apply rbind_ok in Hgi. destruct Hgi as (gsig & Hgsig & Hgi). apply Ok_inj in Hgi.
  cbn [gi_groupContext gi_extensions gi_confirmationTag gi_signer] in Hgi, Hgsig.
  assert (Ecs : gc_cipherSuite (ed_context e) = gc_cipherSuite (gr_context g)) by (rewrite Hctx; reflexivity).
  assert (Egid : gc_groupID (ed_context e) = gc_groupID (gr_context g)) by (rewrite Hctx; reflexivity).
  assert (Hgw : wf_groupInfo gi).
  { subst gi. unfold wf_groupInfo. cbn [gi_groupContext gi_extensions gi_signer]. splits.
    - destruct (lawful_holds _ L) as [_ (V1 & V2 & V3 & V4) _ _]. rewrite Hctx. unfold wf_groupContext, nextContext. cbn [gc_version gc_cipherSuite gc_epoch gc_extensions]. splits; auto. unfold u64. apply N.mod_lt. discriminate.
    - constructor; [|constructor]. reflexivity.
    - apply (sane_index _ Sa). }
  assert (Hgic : gi_groupContext gi = ed_context e) by (subst gi; reflexivity).
  assert (Hopen : decryptGroupInfo (mkWelcome (gc_cipherSuite (gr_context g)) secrets egi) joiner (ed_psk e) = Ok gi).
  { apply info_opened; auto. now rewrite Hgic. }
  destruct (shaped_hash _ _ _ Ws' Hth) as (k' & Sh' & Eth).
  exists k', (ed_tree e), (ed_context e).
  assert (Knd : exists d, cipherSuiteDescriptions (gc_cipherSuite (ed_context e)) = Some d) by (exists d; now rewrite Ecs).
  assert (Rh : gc_treeHash (ed_context e) = tree_hash (gc_cipherSuite (ed_context e)) k' (ed_tree e) [] k' []).
  { rewrite Ecs. rewrite Hctx at 1. cbn [nextContext gc_treeHash]. exact Eth. }
  assert (Hj : forall j, groupFromWelcome (mkWelcome (gc_cipherSuite (gr_context g)) secrets egi) kpp now = Ok j ->
    verifyIntegrity (ed_tree e) (ed_context e) now = Ok tt /\ gr_value j = ed_tree e /\ gr_context j = ed_context e).
  { intros j J. apply groupFromWelcome_inv in J. destruct J as (ref' & s' & Eref' & Es' & _ & J).
    rewrite Href in Eref'. apply Ok_inj in Eref'. subst ref'. rewrite Hdec in Es'. apply Ok_inj in Es'. subst s'. apply groupFromSecrets_inv in J.
    destruct J as (psk & gi' & raw' & tj & signer & epoch & init & interim & me & priv & Epsk & Egi & Eraw & Et & _ & _ & _ & _ & Ev & J).
    cbn [w_cipherSuite gs_psks gs_joinerSecret] in Epsk, Egi. rewrite Hpsk in Epsk. apply Ok_inj in Epsk. subst psk.
    rewrite Hopen in Egi. apply Ok_inj in Egi. subst gi'.
    assert (Er : Some rt = Some raw'). { rewrite <- Eraw. subst gi. reflexivity. }
    injection Er as <-. rewrite Htree in Et. apply Ok_inj in Et. subst tj. rewrite Hgic in Ev. split; [exact Ev|].
    destruct J as (_ & _ & _ & _ & -> & _). unfold gr_value. cbn [gr_heap gr_tree gr_context]. split; [|exact Hgic].
    destruct (load (ed_tree e)) as [h pt] eqn:El. now destruct (load_value _ h pt El) as (V & _). }
  splits.
  - unfold invited_tree. splits; auto. rewrite Hctx. reflexivity.
  - intros Lo. split.
    + intros (j & J). destruct (Hj _ J) as (Ev & _).
      destruct (verifyIntegrity_full_sound k' (ed_tree e) _ now (shaped_full _ _ Sh') (wf_nodes_lifetimes _ Wt) Hnow Lo Ev) as (_ & (I1 & I2 & I3 & I4 & I5 & I6 & I7) & I8).
      unfold valid_members. splits; auto.
    + intros (I3 & I4 & I5 & I6 & I7 & I8).
      assert (Hvi : verifyIntegrity (ed_tree e) (ed_context e) now = Ok tt).
      { apply (verifyIntegrity_complete k'); auto; [now apply wf_nodes_lifetimes|exact (putRatchetTree_encodable _ _ Hrt)|]. split; [|exact I8]. splits; auto. }
      destruct Cs as (ml & alg & Hml & Halg & Hsp). rewrite Hd in Halg. cbn in Halg. injection Halg as <-.
      assert (Hsigner : getLeaf (ed_tree e) (gr_myLeafIndex g) = Ok (Some ml)).
      { apply getLeaf_some. rewrite nodeIndexOf_designated. apply own_leaf_at in Hml. apply (all_joined_keep_leaf _ _ _ A3) in Hml. unfold leaf_at in Hml.
        destruct (nth_error (ed_tree e) _) as [[[l'|]|]|]; congruence. }
      assert (Hver : groupInfoVerifySignature gi (ln_signatureKey ml) = Ok true).
      { unfold groupInfoVerifySignature, falseOnPutErr. subst gi. cbn [gi_groupContext gi_extensions gi_confirmationTag gi_signer gi_signature].
        change (putGroupInfoTBS (mkGroupInfo (ed_context e) [mkExtension 2 rt] tag (gr_myLeafIndex g) gsig)) with (putGroupInfoTBS (mkGroupInfo (ed_context e) [mkExtension 2 rt] tag (gr_myLeafIndex g) [])).
        rewrite Htbs. rewrite Ecs in *. eapply signed_verifies; eauto. }
      assert (Htagok : groupInfoVerifyConfirmationTag gi joiner (ed_psk e) = Ok true).
      { unfold groupInfoVerifyConfirmationTag. cbv zeta. apply (proj2 (falseOnErr_true _)). rewrite Hgic, Hes. cbn [rbind]. unfold signConfirmationTag in Htag. cbv zeta in Htag.
        apply rbind_ok in Htag. destruct Htag as (ck & Hck & Htag). rewrite Hck. cbn [rbind]. unfold verifyMAC. rewrite Htag. cbn [rbind]. subst gi. cbn [gi_confirmationTag]. now rewrite bytes_eqb_refl. }
      destruct (all_joined_there _ _ _ _ A3 (in_map kp_leafNode _ _ Hin)) as (me & Hme).
      destruct (encodable_leaf _ _ _ (putRatchetTree_encodable _ _ Hrt) Hme) as (le & Hle).
      assert (Hfind : findLeaf (ed_tree e) (kp_leafNode (kpp_public kpp)) = Ok (Some me)) by (eapply findLeaf_there; eauto).
      assert (Hmelt : me < leaf_count k') by (apply (member_in_array k' (ed_tree e)); [assumption|congruence]).
      assert (Hni : nodeIndexOf me = 2 * me) by (apply (nodeIndexOf_leaf k'); auto; apply Sh').
      assert (Hlt : 2 * me < lenN (ed_tree e)).
      { unfold leaf_at in Hme. destruct (nth_error (ed_tree e) (N.to_nat (2 * me))) eqn:E2; [|discriminate].
        assert (N.to_nat (2 * me) < length (ed_tree e))%nat by (apply nth_error_Some; congruence). unfold lenN. lia. }
      assert (Hset : exists priv, setN (repeat None (length (ed_tree e))) (nodeIndexOf me) (Some (kpp_encryptionKey kpp)) = Ok priv).
      { rewrite Hni. eexists. apply setN_in. unfold lenN in *. now rewrite repeat_length. }
      destruct Hset as (priv & Hset). destruct (load (ed_tree e)) as [h pt] eqn:El. eexists.
      unfold groupFromWelcome. rewrite Href. cbn [rbind]. rewrite Hdec. cbn [rbind]. change (verifySingleReinitOrBranchPSK (mkGroupSecrets joiner None [])) with true.
      cbn [gs_psks guard rbind]. change (lenN [] =? 0) with true. cbn [guard rbind]. unfold groupFromSecrets. cbn [w_cipherSuite gs_psks gs_joinerSecret gs_pathSecret].
      rewrite Hpsk. cbn [rbind]. rewrite Hopen. cbn [rbind]. cbv zeta.
      replace (findExtensionData (gi_extensions gi) 2) with (Some rt) by (subst gi; reflexivity). replace (gi_signer gi) with (gr_myLeafIndex g) by (subst gi; reflexivity).
      replace (gi_confirmationTag gi) with tag by (subst gi; reflexivity).
      rewrite Htree. cbn [rbind]. rewrite Hsigner. cbn [rbind]. rewrite Hver. cbn [guard rbind]. rewrite Htagok. cbn [guard rbind].
      assert (Econf : gc_confirmedTranscriptHash (ed_context e) = confirmed) by (rewrite Hctx; reflexivity).
      rewrite Hgic, Ecs, N.eqb_refl. cbn [guard rbind]. rewrite Hvi. cbn [rbind]. rewrite Hes. cbn [rbind]. rewrite Hini. cbn [rbind]. rewrite Econf, Hint. cbn [rbind].
      rewrite Hfind. cbn [rbind]. rewrite Hset. cbn [rbind]. rewrite El. reflexivity.
  - intros j J. now destruct (Hj _ J).
Qed.
End WithCrypto.
