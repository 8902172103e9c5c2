(** What becomes of a member that a commit removes. *)
From Coq Require Import Lia.
From Verif Require Export OwnFacts AgreementFacts.

(** What a member holds *)
Record member_state (g : group) : Prop := {
  ms_index : gr_myLeafIndex g < 2 ^ 31;
  ms_keys : own_keys (gr_myLeafIndex g) (gr_privTree g);
  ms_lists : lists_below (gr_value g);
  ms_in : leaf_at (gr_value g) (gr_myLeafIndex g) <> None
}.

Section WithCrypto.
Context {C : crypto}.

Lemma own_keys_nil li n : own_keys li (repeat None n).
Proof. intros x key H. apply nth_error_In, repeat_spec in H. discriminate. Qed.
Lemma carryPriv_keys li tl nl priv p : carryPriv tl nl priv = Ok p -> own_keys li priv -> own_keys li p.
Proof.
  unfold carryPriv. destruct (Nat.ltb_spec (length priv) (Nat.min tl nl)); [discriminate|]. intros E H0 x key Hx. apply Ok_inj in E. subst p.
  destruct (Nat.lt_ge_cases (N.to_nat x) (length (firstn (Nat.min tl nl) priv))) as [Hlt|Hge].
  - rewrite nth_error_app1 in Hx by assumption. eapply H0. exact (fewer_firstn priv _ _ _ Hx).
  - rewrite nth_error_app2 in Hx by assumption. apply nth_error_In, repeat_spec in Hx. discriminate.
Qed.

(** ** Creating and joining *)
Lemma created_state gid kpp rnd g : createGroup gid kpp rnd = Ok g -> member_state g.
Proof.
  intros H. unfold createGroup in H. cbv zeta in H. rewrite first_leaf in H. cbn [rbind] in H.
  apply rbind_ok in H. destruct H as (th & _ & H). apply rbind_ok in H. destruct H as (d & _ & H). apply rbind_ok in H. destruct H as (tag & _ & H).
  apply rbind_ok in H. destruct H as (interim & _ & H). apply rbind_ok in H. destruct H as (psk & _ & H). apply rbind_ok in H. destruct H as (ini & _ & H). apply Ok_inj in H. subst g.
  constructor; unfold gr_value; cbn [gr_myLeafIndex gr_privTree gr_heap gr_tree].
  - reflexivity.
  - intros x key Hx. destruct (N.to_nat x) as [|i] eqn:Ex; [|destruct i; discriminate]. assert (x = 0) as -> by lia. apply (own_leaf_node 0). reflexivity.
  - intros x pn u Hx. cbn in Hx. destruct (N.to_nat x) as [|[|i]]; discriminate.
  - discriminate.
Qed.

Lemma verifyParents_lists k t : shaped k t -> forall xs ek, verifyParents t xs ek = Ok tt ->
  forall x pn u, In x xs -> nth_error t (N.to_nat x) = Some (Some (NParent pn)) -> In u (pn_unmergedLeaves pn) -> own_node (designated u) x.
Proof.
  intros Sh. pose proof (shaped_full _ _ Sh) as F. induction xs as [|y xs IH]; intros ek H x pn u Hx Hn Hu; [destruct Hx|].
  cbn [verifyParents] in H. apply rbind_ok in H. destruct H as (o & Eo & H). apply getN_ok in Eo.
  destruct Hx as [->|Hx].
  - assert (o = Some (NParent pn)) by congruence. subst o. apply rbind_ok in H. destruct H as ([] & Ef & _).
    pose proof (proj1 (foldM_unit (fun li => verifyUnmergedLeaf 40 t (numLeaves t) x li (nodeIndexOf li)) _) Ef u Hu) as Eu. cbv beta in Eu. clear Ef.
    rewrite (numLeaves_tree t k (proj1 F) (proj2 F)) in Eu. destruct (in_array k t x _ F Hn) as (p & Hp & -> & _).
    apply (proj1 (verifyUnmergedLeaf_spec k t p u 40 Sh Hp ltac:(lia))) in Eu. destruct Eu as (Hd & Ha & _). apply own_in_tree; [apply F|apply designated_lt|assumption|].
    split; [assumption|]. apply aos_above. auto.
  - destruct o as [[l|p]|]; [eapply IH; eauto| |eapply IH; eauto].
    apply rbind_ok in H. destruct H as ([] & _ & H). apply rbind_ok in H. destruct H as ([] & _ & H). eapply IH; eauto.
Qed.
Lemma verifyIntegrity_lists k t ctx now : shaped k t -> verifyIntegrity t ctx now = Ok tt -> lists_below t.
Proof.
  intros Sh H. apply (proj1 (verifyIntegrity_parts t ctx now)) in H. destruct H as (_ & _ & creds & keys & _ & _ & H).
  intros x pn u Hn Hu. eapply (verifyParents_lists k t Sh _ _ H); eauto. apply upto_In. unfold lenN. assert (N.to_nat x < length t)%nat by (apply nth_error_Some; congruence). lia.
Qed.

Lemma loop_keys cs k t me : full k t -> me < leaf_count k -> forall a f priv s priv', ancestor_or_self a (leafPath k me) ->
  own_keys me priv -> processPathSecretLoop f cs t priv s (number k a) = Ok priv' -> own_keys me priv'.
Proof.
  intros [Hk Ht] Hme. assert (Hme' : me < 2 ^ 31) by (eapply N.lt_le_trans; [exact Hme|]; change (2 ^ 31) with (leaf_count 31); apply leaf_count_le; exact Hk).
  induction a as [|b q IH] using rev_ind; intros f priv s priv' Ha Hp H; rewrite loop_step, (numLeaves_tree t k Hk Ht) in H.
  - rewrite (path_parent_root k Hk) in H. apply Ok_inj in H. now subst priv'.
  - assert (Hq : (length q < k)%nat) by (apply aos_length in Ha; rewrite leafPath_length, app_length in Ha; cbn in Ha; lia). rewrite (path_parent k Hk q b Hq) in H.
    apply rbind_ok in H. destruct H as (s' & Es & H). apply rbind_ok in H. destruct H as ([n|] & En & H); [|discriminate].
    apply rbind_ok in H. destruct H as (key & Ek & H). apply rbind_ok in H. destruct H as (priv1 & Ep & H).
    destruct f as [|f]; [discriminate|]. assert (Hq' : ancestor_or_self q (leafPath k me)) by (eapply aos_trans; [apply aos_snoc|exact Ha]).
    eapply IH; [exact Hq'| |exact H]. eapply own_keys_set; eauto. apply own_in_tree; auto. unfold in_tree. lia.
Qed.

Lemma joined_state w kpp now g : groupFromWelcome w kpp now = Ok g -> member_state g.
Proof.
  intros H. apply groupFromWelcome_inv in H. destruct H as (ref & s & Eref & Es & Epsks & H). apply groupFromSecrets_inv in H.
  destruct H as (psk & gi & raw & t & signer & epoch & init & interim & me & priv & Epsk & Egi & Eraw & Et & Esg & Esig & Etag & Ecs & Ev & Eep & Ein & Eint & Eme & -> & priv0 & Ep0 & Ep).
  destruct (load t) as [h pt] eqn:El. destruct (load_value t h pt El) as (V & P & L). cbn [fst snd].
  assert (Hne : t <> []). { intros ->. apply getLeaf_some in Esg. destruct (N.to_nat _); discriminate. }
  destruct (decoded_tree raw t Et Hne) as ((k & F) & _). pose proof (verifyIntegrity_shaped k t _ now F Ev) as Sh.
  apply findLeaf_some in Eme. destruct Eme as (l' & e & Hme & Hl & _). rewrite (numLeaves_tree t k (proj1 F) (proj2 F)) in Hme.
  assert (Hme' : me < 2 ^ 31) by (eapply N.lt_le_trans; [exact Hme|]; change (2 ^ 31) with (leaf_count 31); apply leaf_count_le; exact (proj1 F)).
  pose proof (nodeIndexOf_leaf k me (proj1 F) Hme) as Em.
  constructor; unfold gr_value; cbn [gr_myLeafIndex gr_privTree gr_heap gr_tree]; rewrite ?V.
  - exact Hme'.
  - assert (K0 : own_keys me priv0).
    { eapply own_keys_set; [exact Ep0| |apply own_keys_nil]. rewrite Em. now apply own_leaf_node. }
    destruct (gs_pathSecret s) as [ps|]; [|apply Ok_inj in Ep; now subst priv].
    assert (Hsg : designated (gi_signer gi) < leaf_count k).
    { apply getLeaf_some in Esg. rewrite nodeIndexOf_designated in Esg. apply (leaf_in_array k t); [assumption|].
      assert (N.to_nat (2 * designated (gi_signer gi)) < length t)%nat by (apply nth_error_Some; congruence). unfold lenN. lia. }
    rewrite Em, nodeIndexOf_designated in Ep.
    destruct (commonAncestor_leaves k me (designated (gi_signer gi)) (proj1 F) Hme Hsg) as (a & Ha & Ea & A1 & A2 & A3). rewrite Ea in Ep.
    unfold processPathSecret in Ep. apply rbind_ok in Ep. destruct Ep as ([n|] & _ & Ep); [|discriminate]. apply rbind_ok in Ep. destruct Ep as (np & _ & Ep).
    apply rbind_ok in Ep. destruct Ep as (priv1 & E1 & Ep). eapply (loop_keys _ k t me F Hme); [exact A1| |exact Ep]. eapply own_keys_set; eauto.
    apply own_in_tree; auto. apply F.
  - eapply verifyIntegrity_lists; eauto.
  - apply getLeaf_some in Hl. unfold leaf_at. rewrite Em in Hl. rewrite Hl. discriminate.
Qed.

(** ** Welcomes *)
Lemma same_leaf t t' li : same_but_unmerged t t' -> leaf_at t' li = leaf_at t li.
Proof.
  intros H. pose proof (same_but_unmerged_nth t t' (N.to_nat (2 * li)) H) as G. unfold leaf_at.
  destruct (nth_error t _) as [[[l|p]|]|], (nth_error t' _) as [[[l'|p']|]|]; cbn in G; try tauto; try congruence.
Qed.
Lemma withHeap_state g ps ss h t : sane g -> member_state g -> applyH (gr_heap g) (gr_tree g) ps ss = Ok (h, t) -> member_state (withHeap g h).
Proof.
  intros Sa [M1 M2 M3 M4] Ha. destruct (apply_lists _ _ _ _ _ _ (proj1 (sane_consistent _ Sa)) (sane_shape _ Sa) M3 Ha) as [L _].
  constructor; auto. change (gr_myLeafIndex (withHeap g h)) with (gr_myLeafIndex g). rewrite (same_leaf (gr_value g)); [assumption|].
  unfold gr_value, withHeap. cbn [gr_heap gr_tree]. apply extends_value; [exact (proj1 (proj1 (sane_consistent _ Sa)))|]. eapply applyH_extends; eauto.
Qed.
Lemma welcome_state g kps rs ri rh rg g' r : sane g -> member_state g -> createWelcome g kps rs ri rh rg = (g', r) -> member_state g'.
Proof.
  intros Sa M H. unfold createWelcome in H. destruct kps as [|k0 kps0]; [apply pair_equal_spec in H; now destruct H as [<- _]|].
  destruct (applyH _ _ _ _) as [[h t]|?|?|] eqn:Ea; try (apply pair_equal_spec in H; now destruct H as [<- _]).
  assert (E : g' = withHeap g h) by congruence. subst g'. eapply withHeap_state; eauto.
Qed.

(** ** Commits *)
Lemma apply_keeps t ps ss t' li : well_shaped t -> li < 2 ^ 31 -> proposalListNeedsPath ps = false -> vapply t ps ss = Ok t' -> leaf_at t li <> None -> leaf_at t' li <> None.
Proof.
  intros W Hli Hn H Hl. assert (Np : forall p, In p ps -> (forall l, p <> PUpdate l) /\ (forall r, p <> PRemove r)).
  { intros p Hp. assert (~ requires_path p) by (intros Hr; assert (proposalListNeedsPath ps = true) by (apply needsPath_spec; eauto); congruence).
    split; intros x ->; apply H0; cbn; auto. }
  rewrite vapply_eq in H. apply rbind_ok in H. destruct H as (t1 & E1 & H). apply rbind_ok in H. destruct H as (t2 & E2 & H).
  assert (t1 = t).
  { revert E1. apply (foldM_inv _ (fun x => x = t)); [|reflexivity]. intros s [i p] s' Hin -> E. apply in_combine_r in Hin. destruct (Np p Hin) as [N1 _]. unfold updStep in E. cbn [fst snd] in E.
    destruct p; try (now apply Ok_inj in E). now destruct (N1 l). }
  subst t1. assert (t2 = t).
  { revert E2. apply (foldM_inv _ (fun x => x = t)); [|reflexivity]. intros s p s' Hin -> E. destruct (Np p Hin) as [_ N2]. unfold remStep in E.
    destruct p; try (now apply Ok_inj in E). now destruct (N2 removed). }
  subst t2. assert (G : well_shaped t' /\ leaf_at t' li <> None); [|apply G].
  revert H. apply (foldM_inv _ (fun x => well_shaped x /\ leaf_at x li <> None)); [|auto]. intros s p s' _ [Ws Hs] E. unfold addStep in E.
  destruct p; try (apply Ok_inj in E; subst; auto). destruct (add_members _ _ _ Ws E) as (W' & j & Hf & H1 & H2). split; [assumption|].
  destruct (N.eq_dec li j) as [->|Hne]; [rewrite H1; discriminate|now rewrite H2].
Qed.

(** The inversion of [processPath] *)
Lemma processPath_all g li path h t priv now h1 t1 th c priv1 : processPath g li path h t priv now = Ok (h1, t1, th, c, priv1) ->
  mergeUpdatePathH (gc_cipherSuite (gr_context g)) h t li path = Ok (h1, t1) /\
  computeRootTreeHash (gc_cipherSuite (gr_context g)) (deref h1 t1) = Ok th /\
  decryptPathSecrets (gc_cipherSuite (gr_context g)) (deref h1 t1) (nextContext (gr_context g) th (gc_confirmedTranscriptHash (gr_context g))) li (gr_myLeafIndex g) path priv = Ok (c, priv1).
Proof.
  unfold processPath. cbv zeta. intros H. apply rbind_ok in H. destruct H as ([] & _ & H). apply rbind_ok in H. destruct H as (sn & _ & H).
  apply rbind_ok in H. destruct H as ([sk ek] & _ & H). destruct sn as [sn|]; [|discriminate].
  apply rbind_ok in H. destruct H as (creds & _ & H). apply rbind_ok in H. destruct H as ([] & _ & H). apply rbind_ok in H. destruct H as ([] & _ & H).
  apply rbind_ok in H. destruct H as ([h2 t2] & Em & H). apply rbind_ok in H. destruct H as (th' & Eh & H). apply rbind_ok in H. destruct H as ([c' p'] & Ed & H).
  apply Ok_inj in H. inversion H; subst. auto.
Qed.

Lemma mergeH_shaped cs k h t li up h1 t1 : proper h t -> shaped k (deref h t) -> mergeUpdatePathH cs h t li up = Ok (h1, t1) ->
  shaped k (deref h1 t1) /\ merged cs k (deref h t) (deref h1 t1) (designated li) up.
Proof.
  intros P Sh Hm. destruct (mergeH_inv cs k h t li up h1 t1 P Sh Hm) as (E & _). exact (mergeUpdatePath_sound cs k _ _ _ _ Sh E).
Qed.
Lemma full_priv k (t : ptree) h (priv : privTree) : full k (deref h t) -> length priv = length t -> full k priv.
Proof. intros [F1 F2] L. split; [assumption|]. rewrite lenN_deref in F2. unfold lenN in *. lia. Qed.

(** The path of a commit, for a member that is not in the tree *)
Lemma blank_path_error cs k h t li up h1 t1 ctx me priv : proper h t -> shaped k (deref h t) -> mergeUpdatePathH cs h t li up = Ok (h1, t1) ->
  me < 2 ^ 31 -> length priv = length t -> own_keys me priv -> lists_below (deref h t) -> cleared me (deref h t) ->
  exists e, decryptPathSecrets cs (deref h1 t1) ctx li me up priv = Err e.
Proof.
  intros P Sh Hm Hme Hlen Hk Hl Hc. destruct (mergeH_shaped _ _ _ _ _ _ _ _ P Sh Hm) as [Sh' M].
  eapply (cleared_error cs k (deref h t) (deref h1 t1)); auto.
  - exact (full_priv k t h priv (shaped_full _ _ Sh) Hlen).
  - exact (merged_lists _ _ _ _ _ _ Sh M Hl).
Qed.

Lemma checkCommit_pairs g li c proposals senders : checkCommit g li c = Ok (proposals, senders) ->
  exists ps, commits g li c ps /\ proposals = map fst ps /\ senders = map snd ps /\ (c_path c = None -> proposalListNeedsPath proposals = false).
Proof.
  intros H. unfold checkCommit in H. apply rbind_ok in H. destruct H as (ps & E & H). cbv zeta in H. apply rbind_ok in H. destruct H as (? & _ & H). apply rbind_ok in H. destruct H as (? & _ & H).
  apply rbind_guard in H. destruct H as [G H]. apply Ok_inj in H. apply pair_equal_spec in H. destruct H as [<- <-]. exists ps. splits; auto.
  - now apply resolveProposals_spec.
  - intros Ec. rewrite Ec, andb_true_r in G. now apply negb_true_iff in G.
Qed.

Lemma commit_state g ac ids psks now g' : sane g -> member_state g -> processCommit g ac ids psks now = (g', Ok tt) ->
  member_state g' /\
  forall c li ps v, fc_body (ac_content ac) = BCommit c -> sender_leafIndex (fc_sender (ac_content ac)) = li -> commits g li c ps ->
    vapply (gr_value g) (map fst ps) (map snd ps) = Ok v -> leaf_at v (gr_myLeafIndex g) <> None.
Proof.
  intros Sa [M1 M2 M3 M4] H. apply processCommit_ok in H. destruct H as (c & proposals & senders & h & t & Hb & Hck & Ha & Hf).
  destruct (checkCommit_pairs _ _ _ _ _ Hck) as (ps & Hc & -> & -> & Hn).
  pose proof (proj1 (sane_consistent _ Sa)) as Pr. destruct (applyH_value_ok _ _ _ _ _ _ Pr Ha) as [V P1]. fold (gr_value g) in V.
  pose proof (vapply_shape _ _ _ _ (sane_shape _ Sa) V) as W1.
  destruct (apply_lists _ _ _ _ _ _ Pr (sane_shape _ Sa) M3 Ha) as [_ L1].
  destruct (finishCommit_ok _ _ _ _ _ _ _ _ _ Hf) as (priv & nh & h1 & t1 & th & cs & priv1 & ctx & it & psk & es & ini & Ec & _ & Hp & _ & ->).
  pose proof (carryPriv_keys _ _ _ _ _ Ec M2) as K. pose proof (carryPriv_len _ _ _ _ Ec) as Hlen.
  assert (G : leaf_at (deref h t) (gr_myLeafIndex g) <> None /\
    member_state (mkGroup h1 t1 ctx it psk es ini (gr_myLeafIndex g) priv1 (gr_signaturePriv g) [])).
  { destruct (c_path c) as [up|].
    - apply processPath_all in Hp. destruct Hp as (Hm & _ & Hd). destruct W1 as [W1|(k & Sh)].
      { exfalso. unfold mergeUpdatePathH in Hm. apply rbind_ok in Hm. destruct Hm as (v & Hm & _). rewrite W1 in Hm. now apply merge_nil in Hm. }
      destruct (mergeH_shaped _ _ _ _ _ _ _ _ P1 Sh Hm) as [Sh' M].
      assert (Hin : leaf_at (deref h t) (gr_myLeafIndex g) <> None).
      { destruct (present_apply _ _ _ (gr_myLeafIndex g) (sane_shape _ Sa) M1 V M4) as [Hin|Hcl]; [assumption|]. exfalso.
        destruct (blank_path_error _ k _ _ _ _ _ _ (nextContext (gr_context g) th (gc_confirmedTranscriptHash (gr_context g))) _ priv P1 Sh Hm M1 Hlen K L1 Hcl) as [e E]. congruence. }
      split; [assumption|]. constructor; unfold gr_value; cbn [gr_myLeafIndex gr_privTree gr_heap gr_tree]; auto.
      + eapply decrypt_keys; [exact Sh'| | |exact K|exact Hd]; [apply M|assumption].
      + exact (merged_lists _ _ _ _ _ _ Sh M L1).
      + destruct (merged_leaf _ _ _ _ _ _ Sh Sh' M) as [E1 E2]. destruct (N.eq_dec (gr_myLeafIndex g) (designated (sender_leafIndex (fc_sender (ac_content ac))))) as [->|Hne]; [rewrite E1; discriminate|now rewrite E2].
    - destruct Hp as (-> & -> & _ & _ & ->). assert (Hin : leaf_at (deref h t) (gr_myLeafIndex g) <> None) by (eapply apply_keeps; [exact (sane_shape _ Sa)|exact M1|exact (Hn eq_refl)|exact V|exact M4]).
      split; [assumption|]. constructor; auto. }
  destruct G as [G1 G2]. split; [exact G2|]. intros c' li ps' v Hb' <- Hc' V'. assert (c' = c) by congruence. subst c'.
  apply (proj2 (resolveProposals_spec _ _ _ _)) in Hc. apply (proj2 (resolveProposals_spec _ _ _ _)) in Hc'. rewrite Hc in Hc'. apply Ok_inj in Hc'. subst ps'. rewrite V in V'. apply Ok_inj in V'. now subst v.
Qed.

Lemma commit_state_any g ac ids psks now g' r : sane g -> member_state g -> processCommit g ac ids psks now = (g', r) -> member_state g'.
Proof.
  intros Sa M H. destruct r as [[]|e|p|]; [eapply commit_state; eauto| | |].
  - unfold processCommit in H. destruct (fc_body (ac_content ac)) as [?|?|c]; try discriminate.
    destruct (checkCommit _ _ _) as [[ps ss]|?|?|]; try (apply pair_equal_spec in H; now destruct H as [<- _]).
    destruct (applyH _ _ _ _) as [[h t]|?|?|] eqn:Ea; try (apply pair_equal_spec in H; now destruct H as [<- _]).
    destruct (finishCommit _ _ _ _ _ _ _ _) as [g1|?|?|] eqn:Ef; try discriminate. assert (E : g' = withHeap g h) by congruence. subst g'. eapply withHeap_state; eauto.
  - assert (g' = g); [|now subst]. unfold processCommit in H. destruct (fc_body (ac_content ac)) as [?|?|c]; try congruence.
    destruct (checkCommit _ _ _) as [[ps ss]|?|?|]; try congruence. destruct (applyH _ _ _ _) as [[h t]|?|?|] eqn:Ea; try congruence.
    destruct (finishCommit _ _ _ _ _ _ _ _) as [g1|?|?|] eqn:Ef; congruence.
  - assert (g' = g); [|now subst]. unfold processCommit in H. destruct (fc_body (ac_content ac)) as [?|?|c]; try congruence.
    destruct (checkCommit _ _ _) as [[ps ss]|?|?|]; try congruence. destruct (applyH _ _ _ _) as [[h t]|?|?|] eqn:Ea; try congruence.
    destruct (finishCommit _ _ _ _ _ _ _ _) as [g1|?|?|] eqn:Ef; congruence.
Qed.
Lemma message_state g raw now g' r : sane g -> member_state g -> unmarshalAndProcessMessage g raw now = (g', r) -> member_state g'.
Proof.
  intros Sa M H. apply acted_on_or in H. destruct H as [[-> _]|(ac & _ & _ & _ & H)]; [exact M|].
  destruct (fc_body (ac_content ac)) as [d|p|c].
  - destruct H as (-> & _). exact M.
  - unfold noData, processProposal in H. assert (E : g' = g \/ exists ps, g' = withPending g ps).
    { destruct (fc_body (ac_content ac)) as [|p'|]; cbn [fst snd] in H; try (left; congruence). destruct (generateProposalRef _ _); cbn [fst snd] in H; try (left; congruence). right. eexists. apply pair_equal_spec in H. now destruct H as [-> _]. }
    destruct E as [->|[ps ->]]; [exact M|]. destruct M. constructor; auto.
  - unfold noData in H. destruct (processCommit g ac [] [] now) as [g1 r1] eqn:E. cbn [fst snd] in H. apply pair_equal_spec in H. destruct H as [-> _]. eapply commit_state_any; eauto.
Qed.

Theorem obtained_state g : obtained g -> member_state g.
Proof.
  induction 1 as [? ? ? ? H|? ? ? ? H|g kps rs ri rh rg g' r Ho IH H|g raw now g' r Ho IH H].
  - eapply created_state; eauto.
  - eapply joined_state; eauto.
  - eapply welcome_state; eauto. now apply obtained_sane.
  - eapply message_state; eauto. now apply obtained_sane.
Qed.

(** ** Who accepts a commit *)
Theorem accepts_still_member g raw now ac c g' : obtained g -> accepts_commit g raw now ac c g' ->
  leaf_at (gr_value g') (gr_myLeafIndex g') <> None.
Proof.
  intros O (_ & _ & E). apply ms_in. exact (message_state _ _ _ _ _ (obtained_sane g O) (obtained_state g O) E).
Qed.

Theorem blank_not_accepted g raw now ac c li ps h t : obtained g ->
  carries g raw ac -> fc_body (ac_content ac) = BCommit c -> fc_sender (ac_content ac) = SMember li -> commits g li c ps ->
  applyH (gr_heap g) (gr_tree g) (map fst ps) (map snd ps) = Ok (h, t) -> leaf_at (deref h t) (gr_myLeafIndex g) = None ->
  is_ok (snd (unmarshalAndProcessMessage g raw now)) = false.
Proof.
  intros O Hc Hb Hs Hps Ha Hl. pose proof (obtained_sane g O) as Sa. destruct (unmarshalAndProcessMessage g raw now) as [g' r] eqn:E. cbn [snd].
  destruct r as [d|e|p|]; try reflexivity. exfalso. pose proof (acted_on_or _ _ _ _ _ E) as [[_ []]|(ac' & Hc' & _ & _ & Hx)].
  assert (ac' = ac) by (eapply carries_fun; eauto). subst ac'. rewrite Hb in Hx. unfold noData in Hx.
  destruct (processCommit g ac [] [] now) as [g1 [[]|?|?|]] eqn:Ep; cbn in Hx; try discriminate.
  destruct (commit_state _ _ _ _ _ _ Sa (obtained_state g O) Ep) as [_ G].
  destruct (applyH_value_ok _ _ _ _ _ _ (proj1 (sane_consistent _ Sa)) Ha) as [V _].
  refine (G c li ps (deref h t) Hb _ Hps V Hl). now rewrite Hs.
Qed.

(** A leaf that is removed and not filled again *)
Lemma remove_blanks t ps ss t' r li : well_shaped t -> vapply t ps ss = Ok t' -> In (PRemove r) ps -> designated r = li ->
  (forall k, ~ In (PAdd k) ps) -> leaf_at t' li = None.
Proof.
  intros W H Hin Hr Hno. rewrite vapply_eq in H. apply rbind_ok in H. destruct H as (t1 & E1 & H). apply rbind_ok in H. destruct H as (t2 & E2 & H).
  assert (t' = t2).
  { revert H. apply (foldM_inv _ (fun x => x = t2)); [|reflexivity]. intros s p s' Hp -> E. unfold addStep in E. destruct p; try (now apply Ok_inj in E). exfalso. eapply Hno. exact Hp. }
  subst t'. assert (W1 : well_shaped t1).
  { revert E1. apply (foldM_inv _ well_shaped); [|assumption]. intros s [i p] s' _ Ws E. unfold updStep in E. cbn [fst snd] in E. destruct p; try (apply Ok_inj in E; now subst).
    apply rbind_ok in E. destruct E as (s0 & E0 & E). eapply update_members; eauto. }
  clear E1 H Hno. revert t1 W1 E2. induction ps as [|p ps IH]; intros t1 W1 E2; [destruct Hin|].
  cbn [foldM] in E2. apply rbind_ok in E2. destruct E2 as (t3 & E3 & E2).
  assert (W3 : well_shaped t3 /\ forall j, leaf_at t1 j = None -> leaf_at t3 j = None).
  { unfold remStep in E3. destruct p; try (apply Ok_inj in E3; subst; auto; fail). destruct (remove_members _ _ _ W1 E3) as (? & G1 & G2). split; [assumption|]. intros j Hj.
    destruct (N.eq_dec j (designated removed)) as [->|Hn]; [assumption|now rewrite G2]. }
  destruct Hin as [->|Hin]; [|apply (IH Hin t3); [apply W3|exact E2]].
  unfold remStep in E3. destruct (remove_members _ _ _ W1 E3) as (? & G1 & _). rewrite Hr in G1.
  assert (G : well_shaped t2 /\ leaf_at t2 li = None); [|apply G]. revert E2. apply (foldM_inv _ (fun x => well_shaped x /\ leaf_at x li = None)); [|tauto].
  intros s p s' _ [Ws Hs] E. unfold remStep in E. destruct p; try (apply Ok_inj in E; subst; auto; fail). destruct (remove_members _ _ _ Ws E) as (? & K1 & K2). split; [assumption|].
  destruct (N.eq_dec li (designated removed)) as [->|Hn]; [assumption|now rewrite K2].
Qed.

Theorem removed_not_accepted g raw now ac c li ps r s : obtained g ->
  carries g raw ac -> fc_body (ac_content ac) = BCommit c -> fc_sender (ac_content ac) = SMember li -> commits g li c ps ->
  In (PRemove r, s) ps -> designated r = gr_myLeafIndex g -> additionsOf ps = [] ->
  is_ok (snd (unmarshalAndProcessMessage g raw now)) = false.
Proof.
  intros O Hc Hb Hs Hps Hr Er Ha. pose proof (obtained_sane g O) as Sa. destruct (unmarshalAndProcessMessage g raw now) as [g' rr] eqn:E. cbn [snd].
  destruct rr as [d|e|p|]; try reflexivity. exfalso. pose proof (acted_on_or _ _ _ _ _ E) as [[_ []]|(ac' & Hc' & _ & _ & Hx)].
  assert (ac' = ac) by (eapply carries_fun; eauto). subst ac'. rewrite Hb in Hx. unfold noData in Hx.
  destruct (processCommit g ac [] [] now) as [g1 [[]|?|?|]] eqn:Ep; cbn in Hx; try discriminate.
  pose proof Ep as Ep'. apply processCommit_ok in Ep'. destruct Ep' as (c' & proposals & senders & h & t & Hb' & Hck & Ha' & _).
  assert (c' = c) by congruence. subst c'. destruct (checkCommit_pairs _ _ _ _ _ Hck) as (ps' & Hc2 & -> & -> & _). rewrite Hs in Hc2. cbn [sender_leafIndex] in Hc2.
  apply (proj2 (resolveProposals_spec _ _ _ _)) in Hc2. pose proof (proj2 (resolveProposals_spec _ _ _ _) Hps) as Hc3. rewrite Hc2 in Hc3. apply Ok_inj in Hc3. subst ps'.
  assert (X : is_ok (snd (unmarshalAndProcessMessage g raw now)) = false); [|rewrite E in X; discriminate].
  eapply blank_not_accepted; eauto. destruct (applyH_value_ok _ _ _ _ _ _ (proj1 (sane_consistent _ Sa)) Ha') as [V _].
  eapply (remove_blanks _ _ _ _ r); [exact (sane_shape _ Sa)|exact V| |assumption|].
  - apply in_map_iff. exists (PRemove r, s). auto.
  - intros k Hk. apply in_map_iff in Hk. destruct Hk as ([p s'] & Ek & Hk). cbn in Ek. subst p.
    assert (In (kp_leafNode k) (additionsOf ps)); [|rewrite Ha in *; contradiction]. unfold additionsOf. apply in_flat_map. exists (PAdd k, s'). cbn. auto.
Qed.

(** ** Two members in agreement, one of whom is removed *)
Lemma verifyPublic_same g g2 m : same_epoch g g2 -> verifyPublicMessage g2 m = verifyPublicMessage g m.
Proof. intros (E1 & E2 & E3). unfold verifyPublicMessage. now rewrite E1, E2, E3. Qed.
Lemma openPrivate_same g g2 m : same_epoch g g2 -> openPrivateMessage g2 m = openPrivateMessage g m.
Proof.
  intros (E1 & E2 & E3). assert (L : length (gr_tree g2) = length (gr_tree g)) by (rewrite <- !gr_value_length; congruence).
  unfold openPrivateMessage. rewrite E1, E2, E3. cbv zeta.
  destruct (guard _ _) as [[]| | |]; cbn [rbind]; try reflexivity. destruct (guard _ _) as [[]| | |]; cbn [rbind]; try reflexivity.
  destruct (deriveSecret _ _ _); cbn [rbind]; try reflexivity. destruct (decryptSenderData _ _ _); cbn [rbind]; try reflexivity. now rewrite (messageSecret_same g g2).
Qed.

(** What a message means to a member depends on the epoch only. *)
Lemma same_commit g g2 raw now ac c g2' : same_epoch g g2 -> accepts_commit g2 raw now ac c g2' ->
  unmarshalAndProcessMessage g raw now = noData (processCommit g ac [] [] now).
Proof.
  intros S (Hc & Hb & E). unfold unmarshalAndProcessMessage in *. destruct (unmarshal getMlsMessage raw) as [mm|e|e|] eqn:Er; try discriminate.
  destruct mm as [m|m|w|gi|k]; try discriminate.
  - unfold processPublicMessage in *. rewrite (verifyPublic_same g g2 m S) in E. destruct (verifyPublicMessage g m) as [ac'|e|e|] eqn:Ev; try discriminate.
    destruct (verifyPublicMessage_ok _ _ _ Ev) as (Hac & _). assert (ac' = ac).
    { eapply carries_fun; [|exact Hc]. rewrite Hac. now apply carries_public. }
    clear Hac. subst ac'. now rewrite Hb.
  - unfold processPrivateMessage in *. rewrite (openPrivate_same g g2 m S) in E. destruct (openPrivateMessage g m) as [ac'|e|e|] eqn:Ev; try discriminate.
    rewrite <- (openPrivate_same g g2 m S) in Ev. destruct (openPrivateMessage_ok _ _ _ _ Er Ev) as (Hac & _).
    assert (ac' = ac) by (eapply carries_fun; eauto). subst ac'. now rewrite Hb.
Qed.

Lemma processPath_error g g2 li path h t h2 t2 priv priv2 now x : gr_context g2 = gr_context g -> proper h t -> proper h2 t2 -> well_shaped (deref h t) -> deref h2 t2 = deref h t ->
  processPath g2 li path h2 t2 priv2 now = Ok x ->
  gr_myLeafIndex g < 2 ^ 31 -> length priv = length t -> own_keys (gr_myLeafIndex g) priv -> lists_below (deref h t) -> cleared (gr_myLeafIndex g) (deref h t) ->
  exists e, processPath g li path h t priv now = Err e.
Proof.
  intros Ec P P2 W V H Hme Hlen Hk Hl Hcl. unfold processPath in *. cbv zeta in *. rewrite Ec, V in H.
  apply rbind_ok in H. destruct H as ([] & -> & H). cbn [rbind]. apply rbind_ok in H. destruct H as (sn & -> & H). cbn [rbind].
  apply rbind_ok in H. destruct H as ([sk ek] & -> & H). cbn [rbind]. destruct sn as [sn|]; [|discriminate].
  apply rbind_ok in H. destruct H as (creds & -> & H). cbn [rbind]. apply rbind_ok in H. destruct H as ([] & -> & H). cbn [rbind].
  apply rbind_ok in H. destruct H as ([] & -> & H). cbn [rbind]. apply rbind_ok in H. destruct H as ([h3 t3] & Em & H).
  destruct W as [W|(k & Sh)].
  { exfalso. unfold mergeUpdatePathH in Em. apply rbind_ok in Em. destruct Em as (v & Em & _). rewrite V, W in Em. now apply merge_nil in Em. }
  destruct (mergeH_inv _ k h2 t2 li path h3 t3 P2 ltac:(now rewrite V) Em) as (E3 & _). rewrite V in E3.
  destruct (proj1 (mergeH_value (gc_cipherSuite (gr_context g)) k h t li path P Sh) _ E3) as (h4 & t4 & Em4 & V1 & _). rewrite Em4. cbn [rbind]. rewrite V1.
  apply rbind_ok in H. destruct H as (th & -> & H). cbn [rbind].
  destruct (blank_path_error _ k _ _ _ _ _ _ (nextContext (gr_context g) th (gc_confirmedTranscriptHash (gr_context g))) _ priv P Sh Em4 Hme Hlen Hk Hl Hcl) as [e E].
  rewrite V1 in E. rewrite E. cbn [rbind]. eauto.
Qed.

Theorem removed_gets_error g g2 raw now ac c li g2' ps h t : obtained g -> obtained g2 -> same_epoch g g2 -> gr_pending g2 = gr_pending g ->
  accepts_commit g2 raw now ac c g2' -> fc_sender (ac_content ac) = SMember li -> commits g li c ps ->
  applyH (gr_heap g) (gr_tree g) (map fst ps) (map snd ps) = Ok (h, t) -> leaf_at (deref h t) (gr_myLeafIndex g) = None ->
  exists e, unmarshalAndProcessMessage g raw now = (withHeap g h, Err e).
Proof.
  intros O O2 S Hp A Hs Hc Ha Hl. pose proof (obtained_sane g O) as Sa. pose proof (obtained_sane g2 O2) as Sa2. pose proof (obtained_state g O) as [M1 M2 M3 M4].
  pose proof (accepts_commit_inv _ _ _ _ _ _ A) as [_ Ep]. pose proof A as (_ & Hb & _).
  rewrite (same_commit g g2 raw now ac c g2' S A). destruct S as (S1 & S2 & S3).
  apply processCommit_ok in Ep. destruct Ep as (c' & proposals & senders & h2 & t2 & Hb' & Hck & Ha2 & Hf). assert (c' = c) by congruence. subst c'.
  rewrite Hs in Hck. cbn [sender_leafIndex] in Hck. assert (Ek : checkCommit g li c = Ok (proposals, senders)) by (unfold checkCommit in *; now rewrite Hp, S1 in Hck).
  destruct (checkCommit_pairs _ _ _ _ _ Ek) as (ps' & Hc2 & Ep1 & Ep2 & Hn). apply (proj2 (resolveProposals_spec _ _ _ _)) in Hc2. pose proof (proj2 (resolveProposals_spec _ _ _ _) Hc) as Hc3.
  rewrite Hc2 in Hc3. apply Ok_inj in Hc3. subst ps' proposals senders.
  pose proof (proj1 (sane_consistent _ Sa)) as Pr. destruct (applyH_value_ok _ _ _ _ _ _ Pr Ha) as [V P]. fold (gr_value g) in V.
  destruct (applyH_value_ok _ _ _ _ _ _ (proj1 (sane_consistent _ Sa2)) Ha2) as [V2 P2]. fold (gr_value g2) in V2. rewrite S2, V in V2. apply Ok_inj in V2.
  pose proof (vapply_shape _ _ _ _ (sane_shape _ Sa) V) as W. change (well_shaped (deref h t)) in W.
  destruct (apply_lists _ _ _ _ _ _ Pr (sane_shape _ Sa) M3 Ha) as [_ L].
  unfold processCommit. rewrite Hb, Hs. cbn [sender_leafIndex]. rewrite Ek, Ha.
  assert (F : exists e, finishCommit g ac c h t [] [] now = Err e).
  { destruct (carryPriv_ok (length (gr_tree g)) (length t) (gr_privTree g) (proj2 (sane_consistent _ Sa))) as (p & Ecp & Lp).
    unfold finishCommit in *. cbv zeta in *. rewrite S1 in Hf. rewrite Ecp. cbn [rbind]. apply rbind_ok in Hf. destruct Hf as (p2 & _ & Hf). apply rbind_ok in Hf. destruct Hf as (nh & -> & Hf). cbn [rbind].
    apply rbind_ok in Hf. destruct Hf as (x & Hx & _). destruct (c_path c) as [up|].
    - rewrite Hs in *. cbn [sender_leafIndex] in *.
      destruct (processPath_error g g2 li up h t h2 t2 p p2 now x S1 P P2 W (eq_sym V2) Hx M1 Lp (carryPriv_keys _ _ _ _ _ Ecp M2) L) as [e E].
      + destruct (present_apply _ _ _ (gr_myLeafIndex g) (sane_shape _ Sa) M1 V M4) as [Hin|Hcl]; [contradiction|exact Hcl].
      + rewrite E. cbn [rbind]. eauto.
    - exfalso. refine (apply_keeps _ _ _ _ _ (sane_shape _ Sa) M1 (Hn eq_refl) V M4 Hl). }
  destruct F as [e ->]. exists e. reflexivity.
Qed.
End WithCrypto.
