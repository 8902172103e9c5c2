(** Proofs about who changes the leaves of the tree. *)
From Verif Require Export SpecOwnLeaf ReferenceFacts CommitTreeFacts.
From Coq Require Import Lia.

Lemma vapply_keeps t l t' i lf : well_shaped t -> vapply t (map fst l) (map snd l) = Ok t' -> leaf_at t i = Some lf ->
  leaf_at t' i = Some lf \/ In i (removalsOf l) \/ exists m, In (i, m) (updatesOf l) /\ leaf_at t' i = Some m.
Proof.
  intros W H Hl. rewrite vapply_eq, updates_eq in H. apply rbind_ok in H. destruct H as (t1 & H1 & H).
  apply rbind_ok in H. destruct H as (t2 & H2 & H3).
  assert (U : well_shaped t1 /\ exists m, leaf_at t1 i = Some m /\ (m = lf \/ In (i, m) (updatesOf l))).
  { revert H1. apply (foldM_inv _ (fun x => well_shaped x /\ exists m, leaf_at x i = Some m /\ (m = lf \/ In (i, m) (updatesOf l)))); [|eauto].
    intros s [p sd] s' Hin [Ws (m & Hm & Ho)] E. unfold updPair in E. cbn [fst snd] in E. destruct p; try (apply Ok_inj in E; subst; eauto).
    destruct (update_members _ _ _ _ Ws E) as (W' & E1 & E2). split; [exact W'|]. destruct (N.eq_dec i (designated sd)) as [->|Hne].
    - eexists. split; [exact E1|right]. unfold updatesOf. apply in_flat_map. exists (PUpdate l0, sd). split; [exact Hin|now left].
    - exists m. split; [now rewrite E2|exact Ho]. }
  destruct U as (W1 & m & Hm & Ho). destruct (removes_members _ _ _ W1 H2) as [W2 R]. specialize (R i). rewrite flat_map_map in R.
  change (flat_map _ l) with (removalsOf l) in R. destruct (memN i (removalsOf l)) eqn:Em.
  { right. left. now apply memN_In. }
  rewrite Hm in R. assert (A : leaf_at t' i = Some m).
  { assert (G : well_shaped t' /\ leaf_at t' i = Some m); [|apply G]. revert H3. apply (foldM_inv _ (fun x => well_shaped x /\ leaf_at x i = Some m)); [|auto].
    intros s p s' _ [Ws Hs] E. unfold addStep in E. destruct p; try (apply Ok_inj in E; subst; auto).
    destruct (add_members _ _ _ Ws E) as (W' & j & Hf & E1 & E2). split; [assumption|]. destruct (N.eq_dec i j) as [->|Hne]; [|now rewrite E2]. destruct Hf as [Hf _]. congruence. }
  destruct Ho as [->|Ho]; [now left|right; right; eauto].
Qed.

Lemma vapply_from t l t' i l' : well_shaped t -> vapply t (map fst l) (map snd l) = Ok t' -> leaf_at t' i = Some l' ->
  leaf_at t i = Some l' \/ In l' (additionsOf l) \/ In (i, l') (updatesOf l).
Proof.
  intros W H Hl. rewrite vapply_eq, updates_eq in H. apply rbind_ok in H. destruct H as (t1 & H1 & H).
  apply rbind_ok in H. destruct H as (t2 & H2 & H3).
  assert (U : well_shaped t1 /\ forall m, leaf_at t1 i = Some m -> leaf_at t i = Some m \/ In (i, m) (updatesOf l)).
  { revert H1. apply (foldM_inv _ (fun x => well_shaped x /\ forall m, leaf_at x i = Some m -> leaf_at t i = Some m \/ In (i, m) (updatesOf l))); [|auto].
    intros s [p sd] s' Hin [Ws IH] E. unfold updPair in E. cbn [fst snd] in E. destruct p; try (apply Ok_inj in E; subst; eauto).
    destruct (update_members _ _ _ _ Ws E) as (W' & E1 & E2). split; [exact W'|]. intros m Hm. destruct (N.eq_dec i (designated sd)) as [->|Hne].
    - right. assert (m = l0) by congruence. subst m. unfold updatesOf. apply in_flat_map. exists (PUpdate l0, sd). split; [exact Hin|now left].
    - apply IH. now rewrite <- E2. }
  destruct U as (W1 & U). destruct (removes_members _ _ _ W1 H2) as [W2 R]. specialize (R i).
  assert (R' : forall m, leaf_at t2 i = Some m -> leaf_at t1 i = Some m) by (intros m Hm; rewrite Hm in R; destruct (memN _ _); [discriminate|congruence]).
  assert (A : well_shaped t' /\ forall m, leaf_at t' i = Some m -> leaf_at t2 i = Some m \/ In m (additionsOf l)).
  { revert H3. apply (foldM_inv _ (fun x => well_shaped x /\ forall m, leaf_at x i = Some m -> leaf_at t2 i = Some m \/ In m (additionsOf l))); [|auto].
    intros s p s' Hin [Ws IH] E. unfold addStep in E. destruct p; try (apply Ok_inj in E; subst; auto; fail).
    destruct (add_members _ _ _ Ws E) as (W' & j & Hf & E1 & E2). split; [assumption|]. intros m Hm. destruct (N.eq_dec i j) as [->|Hne].
    - right. assert (m = kp_leafNode kp) by congruence. subst m. apply in_map_iff in Hin. destruct Hin as ([p s0] & Ep & Hin). cbn [fst] in Ep. subst p.
      unfold additionsOf. apply in_flat_map. exists (PAdd kp, s0). split; [exact Hin|now left].
    - apply IH. now rewrite <- E2. }
  destruct A as [_ A]. destruct (A _ Hl) as [G|G]; [|auto]. destruct (U _ (R' _ G)); auto.
Qed.

Section WithCrypto.
Context {C : crypto}.

Lemma authentic_signed g m s : authentic g m -> fc_sender (ac_content m) = SMember s -> signed_by_leaf g (designated s) m.
Proof.
  intros (H1 & H2 & li & leaf & H3 & H4 & H5) Hs. assert (li = s) by congruence. subst li. unfold signed_by_leaf. splits; auto. exists leaf. split; [|exact H5].
  change ((2 * s) mod 2 ^ 32) with (nodeIndexOf s) in H4. rewrite nodeIndexOf_designated in H4. unfold leaf_at. now rewrite H4.
Qed.
Lemma update_by_member g ac c li ps i l' : obtained g -> authentic g ac -> fc_sender (ac_content ac) = SMember li -> commits g li c ps ->
  In (i, l') (updatesOf ps) -> by_its_member g ac c i l'.
Proof.
  intros O Ha Hs Hc Hin. unfold updatesOf in Hin. apply in_flat_map in Hin. destruct Hin as ([p s] & Hin & Hp). cbn [fst snd] in Hp.
  destruct p; try destruct Hp as [E|[]]; try contradiction. apply pair_equal_spec in E as [<- ->].
  destruct (committed_rightly g li c ps _ _ O Hc Hin) as [[-> Hi]|(m & Hm & Hb & Hsm & Hi)].
  - left. split; [now apply authentic_signed|now right].
  - right. exists m. splits; auto. now apply authentic_signed.
Qed.

Theorem leaves_kept g raw now ac c g' li i l : obtained g -> accepts_commit g raw now ac c g' -> fc_sender (ac_content ac) = SMember li ->
  leaf_at (gr_value g) i = Some l ->
  leaf_at (gr_value g') i = Some l \/ removes g li c i \/ exists l', by_its_member g ac c i l' /\ leaf_at (gr_value g') i = Some l'.
Proof.
  intros O A Hs Hl. pose proof (obtained_sane _ O) as Sa. pose proof A as (_ & Hb & _). pose proof (accepts_commit_inv _ _ _ _ _ _ A) as [Hau Ep].
  apply processCommit_ok in Ep. destruct Ep as (c1 & pr & sn & h & t0 & Hb1 & Hck & _). assert (c1 = c) by congruence. subst c1.
  rewrite Hs in Hck. cbn [sender_leafIndex] in Hck. destruct (checkCommit_pairs _ _ _ _ _ Hck) as (ps & Hc & _).
  destruct (commit_tree _ _ _ _ _ _ _ _ Sa A Hs Hc) as (v & W & V & P).
  destruct (vapply_keeps _ _ _ i l (sane_shape _ Sa) V Hl) as [K|[K|K]].
  2: { right. left. unfold removalsOf in K. apply in_flat_map in K. destruct K as ([p s] & Hin & Hp). cbn [fst snd] in Hp.
       destruct p; try destruct Hp as [E|[]]; try contradiction. exists removed, s. split; [|exact E]. exact (committed_rightly g li c ps _ _ O Hc Hin). }
  - destruct (c_path c) as [up|] eqn:Ec.
    + destruct P as (k & sg & S1 & S2 & M & _). destruct (merged_leaf _ _ _ _ _ _ S1 S2 M) as [M1 M2].
      destruct (N.eq_dec i (designated li)) as [->|Hne]; [|left; now rewrite M2].
      right. right. exists (up_leafNode up). split; [|exact M1]. left. split; [now apply authentic_signed|]. left. eauto.
    + left. now rewrite P.
  - destruct K as (m & Hm & Hv). right. right. destruct (c_path c) as [up|] eqn:Ec.
    + destruct P as (k & sg & S1 & S2 & M & _). destruct (merged_leaf _ _ _ _ _ _ S1 S2 M) as [M1 M2].
      destruct (N.eq_dec i (designated li)) as [->|Hne].
      * exists (up_leafNode up). split; [|exact M1]. left. split; [now apply authentic_signed|]. left. eauto.
      * exists m. split; [eapply update_by_member; eauto|]. now rewrite M2.
    + exists m. split; [eapply update_by_member; eauto|]. now rewrite P.
Qed.

Theorem leaves_come_from g raw now ac c g' li i l' : obtained g -> accepts_commit g raw now ac c g' -> fc_sender (ac_content ac) = SMember li ->
  leaf_at (gr_value g') i = Some l' -> leaf_at (gr_value g) i = Some l' \/ adds g li c l' \/ by_its_member g ac c i l'.
Proof.
  intros O A Hs Hl. pose proof (obtained_sane _ O) as Sa. pose proof A as (_ & Hb & _). pose proof (accepts_commit_inv _ _ _ _ _ _ A) as [Hau Ep].
  apply processCommit_ok in Ep. destruct Ep as (c1 & pr & sn & h & t0 & Hb1 & Hck & _). assert (c1 = c) by congruence. subst c1.
  rewrite Hs in Hck. cbn [sender_leafIndex] in Hck. destruct (checkCommit_pairs _ _ _ _ _ Hck) as (ps & Hc & _).
  destruct (commit_tree _ _ _ _ _ _ _ _ Sa A Hs Hc) as (v & W & V & P).
  assert (G : leaf_at v i = Some l' \/ by_its_member g ac c i l').
  { destruct (c_path c) as [up|] eqn:Ec; [|left; now rewrite <- P].
    destruct P as (k & sg & S1 & S2 & M & _). destruct (merged_leaf _ _ _ _ _ _ S1 S2 M) as [M1 M2].
    destruct (N.eq_dec i (designated li)) as [->|Hne]; [|left; now rewrite <- M2].
    right. left. split; [now apply authentic_signed|]. left. exists up. split; [exact Ec|congruence]. }
  destruct G as [G|G]; [|auto]. destruct (vapply_from _ _ _ i l' (sane_shape _ Sa) V G) as [K|[K|K]]; [auto| |].
  - right. left. unfold additionsOf in K. apply in_flat_map in K. destruct K as ([p s] & Hin & Hp). cbn [fst snd] in Hp.
    destruct p; try destruct Hp as [E|[]]; try contradiction. exists kp, s. split; [|exact E]. exact (committed_rightly g li c ps _ _ O Hc Hin).
  - right. right. eapply update_by_member; eauto.
Qed.

(** ** Whole histories *)
Lemma other_messages_keep g raw now g' r : obtained g -> unmarshalAndProcessMessage g raw now = (g', r) ->
  (exists ac c li, accepts_commit g raw now ac c g' /\ fc_sender (ac_content ac) = SMember li) \/ forall i, leaf_at (gr_value g') i = leaf_at (gr_value g) i.
Proof.
  intros O H. pose proof H as H0. apply acted_on_or in H. destruct H as [[-> _]|(ac & Hca & Hau & _ & H)]; [auto|].
  destruct (fc_body (ac_content ac)) as [d|p|c] eqn:Eb.
  - destruct H as (-> & _). auto.
  - right. intros i. unfold noData, processProposal in H. rewrite Eb in H. destruct (generateProposalRef _ _) as [ref|?|?|]; cbn [fst snd rmap] in H;
      try (assert (g' = g) as -> by congruence; reflexivity). apply pair_equal_spec in H. destruct H as [-> _]. reflexivity.
  - destruct r as [d|e|p|].
    + left. destruct Hau as (_ & _ & li & leaf & Es & _). exists ac, c, li. split; [|exact Es]. splits; auto.
      unfold noData in H. destruct (processCommit g ac [] [] now) as [g1 r1]. cbn [fst snd] in H. apply pair_equal_spec in H as [<- E].
      destruct r1 as [[]|?|?|]; try discriminate. cbn in E. congruence.
    + right. intros i. destruct (error_outcome _ _ _ _ _ O H0) as [(_ & Hu & _) _]. now apply same_leaf.
    + right. intros i. unfold noData, processCommit in H. rewrite Eb in H.
      destruct (checkCommit _ _ _) as [[ps ss]|?|?|]; try (assert (g' = g) as -> by (cbn in H; congruence); reflexivity).
      destruct (applyH _ _ _ _) as [[h t]|?|?|]; try (assert (g' = g) as -> by (cbn in H; congruence); reflexivity).
      destruct (finishCommit _ _ _ _ _ _ _ _) as [g1|?|?|]; cbn in H; try discriminate; assert (g' = g) as -> by congruence; reflexivity.
    + right. intros i. unfold noData, processCommit in H. rewrite Eb in H.
      destruct (checkCommit _ _ _) as [[ps ss]|?|?|]; try (assert (g' = g) as -> by (cbn in H; congruence); reflexivity).
      destruct (applyH _ _ _ _) as [[h t]|?|?|]; try (assert (g' = g) as -> by (cbn in H; congruence); reflexivity).
      destruct (finishCommit _ _ _ _ _ _ _ _) as [g1|?|?|]; cbn in H; try discriminate; assert (g' = g) as -> by congruence; reflexivity.
Qed.

Theorem leaf_stays l : forall g i lf, obtained g -> leaf_at (gr_value g) i = Some lf ->
  leaf_at (gr_value (after g l)) i = Some lf \/
  exists l1 raw now l2 ac c li g2, l = l1 ++ (raw, now) :: l2 /\ let g1 := after g l1 in
    leaf_at (gr_value g1) i = Some lf /\ accepts_commit g1 raw now ac c g2 /\ fc_sender (ac_content ac) = SMember li /\
    (removes g1 li c i \/ exists l', by_its_member g1 ac c i l' /\ leaf_at (gr_value g2) i = Some l').
Proof.
  induction l as [|[raw now] l IH]; intros g i lf O Hl; [now left|]. cbn [after].
  destruct (unmarshalAndProcessMessage g raw now) as [g' r] eqn:E. cbn [fst].
  assert (O' : obtained g') by (eapply obtained_message; [exact O|eassumption]).
  assert (G : leaf_at (gr_value g') i = Some lf \/ exists ac c li, accepts_commit g raw now ac c g' /\ fc_sender (ac_content ac) = SMember li /\
    (removes g li c i \/ exists l', by_its_member g ac c i l' /\ leaf_at (gr_value g') i = Some l')).
  { destruct (other_messages_keep _ _ _ _ _ O E) as [(ac & c & li & A & Hs)|K]; [|left; now rewrite K].
    destruct (leaves_kept _ _ _ _ _ _ _ _ _ O A Hs Hl) as [G|G]; [now left|right]. exists ac, c, li. auto. }
  destruct G as [G|(ac & c & li & A & Hs & G)].
  - destruct (IH g' i lf O' G) as [R|(l1 & raw1 & now1 & l2 & ac & c & li & g2 & -> & R)]; [now left|right].
    exists ((raw, now) :: l1), raw1, now1, l2, ac, c, li, g2. split; [reflexivity|]. cbn [after]. rewrite E. exact R.
  - right. exists [], raw, now, l, ac, c, li, g'. split; [reflexivity|]. cbn [after]. auto.
Qed.
End WithCrypto.
