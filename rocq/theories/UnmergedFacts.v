(** The rule about unmerged leaves through the operations. *)
From Verif Require Export MergeFacts.

Definition strong (k : nat) (t : ratchetTree) : Prop :=
  shaped k t /\ lists_members_below k t /\ increasing k t /\ packed k t.

Lemma height_unique k1 k2 {A} (t : list (option A)) : full k1 t -> full k2 t -> k1 = k2.
Proof.
  intros [_ H1] [_ H2]. rewrite !node_leaf_count in *. pose proof (leaf_count_pos k1). pose proof (leaf_count_pos k2).
  destruct (Nat.lt_trichotomy k1 k2) as [L|[->|L]]; [|reflexivity|]; apply leaf_count_lt in L; lia.
Qed.
Lemma strong_of_rule k t : strong_rule t -> shaped k t -> strong k t.
Proof.
  intros [->|(k' & H & R)] Sh.
  - destruct Sh as [[_ L] _]. rewrite node_leaf_count in L. pose proof (leaf_count_pos k). change (lenN (@nil (option node))) with 0 in L. lia.
  - rewrite (height_unique k k' t (shaped_full _ _ Sh) (shaped_full _ _ H)). split; assumption.
Qed.

(** The same parents, except some with an empty list, and at least the same
    members below them *)
Lemma strong_fewer k t t' : strong k t -> shaped k t' ->
  (forall q pn, in_tree k q -> at_path k t' q = Some (NParent pn) -> pn_unmergedLeaves pn = [] \/ at_path k t q = Some (NParent pn) /\
     forall u, u < leaf_count k -> above q (leafPath k u) -> leaf_at t u <> None -> leaf_at t' u <> None) -> strong k t'.
Proof.
  intros (Sh & L & I & P) Sh' H. split; [assumption|]. splits.
  - intros q pn u Hq E Hu. destruct (H q pn Hq E) as [E0|[E0 M]]; [rewrite E0 in Hu; destruct Hu|].
    destruct (L q pn u Hq E0 Hu) as (L1 & L2 & L3). splits; auto.
  - intros q pn Hq E. destruct (H q pn Hq E) as [E0|[E0 M]]; [rewrite E0; constructor|]. eauto.
  - intros q pn u j Hq E Hu Hj Ha. destruct (H q pn Hq E) as [E0|[E0 M]]; [rewrite E0 in Hu; destruct Hu|].
    apply M; auto; [|eapply P; eauto]. destruct (L q pn u Hq E0 Hu) as (L1 & _). lia.
Qed.

Lemma strong_replaced k t t' li o : strong k t -> shaped k t' -> replaced k t t' li o -> strong k t'.
Proof.
  intros S Sh' R. apply (strong_fewer k t); auto. intros q pn Hq E. right.
  pose proof (replaced_leaf k t t' li o (proj1 S) Sh' R) as [_ RL]. destruct R as (F' & Hli & A' & B' & O').
  assert (Na : ~ above q (leafPath k li)) by (intros Ha; rewrite (B' q Hq Ha) in E; discriminate).
  assert (Nq : q <> leafPath k li).
  { intros ->. apply (proj2 Sh') in E; [|assumption]. cbn in E. rewrite leafPath_length in E. lia. }
  rewrite (O' q Hq Nq Na) in E. split; [assumption|]. intros u Hu Ha Hm. rewrite RL; [assumption|]. intros ->. contradiction.
Qed.

Lemma leafPath_pad k k' u : (k' <= k)%nat -> u < leaf_count k' -> leafPath k u = repeat false (k - k') ++ leafPath k' u.
Proof.
  intros Hle Hu. replace k with ((k - k') + k')%nat at 1 by lia. induction (k - k')%nat as [|d IH]; [reflexivity|].
  cbn [Nat.add repeat app]. rewrite leafPath_S; [now rewrite IH|]. pose proof (leaf_count_le k' (d + k') ltac:(lia)). lia.
Qed.
Lemma above_pad d q p : above (repeat false d ++ q) (repeat false d ++ p) <-> above q p.
Proof.
  split.
  - intros (b & s & E). rewrite <- app_assoc in E. apply app_inv_head in E. exists b, s. exact E.
  - intros (b & s & ->). exists b, s. now rewrite app_assoc.
Qed.
Lemma above_pad_small k k' q u : (k' <= k)%nat -> in_tree k' q -> u < leaf_count k -> above (repeat false (k - k') ++ q) (leafPath k u) -> u < leaf_count k'.
Proof.
  intros Hle Hq Hu (b & s & E).
  assert (Hv : val (leafPath k u) = u) by (rewrite leafPath_val; now apply N.mod_small).
  rewrite E, <- app_assoc in Hv.
  assert (V : forall d r, val (repeat false d ++ r) = val r) by (induction d as [|d IHd]; intros r; cbn [repeat app val N.b2n]; [reflexivity|]; rewrite N.mul_0_l, N.add_0_l; apply IHd).
  rewrite V in Hv. assert (L : length (q ++ b :: s) = k').
  { apply (f_equal (@length bool)) in E. rewrite leafPath_length, !app_length, repeat_length in E. rewrite app_length. cbn in *. lia. }
  destruct (leafPath_onto k' _ L) as [_ H]. rewrite Hv in H. exact H.
Qed.

Lemma strong_firstn k k' t : strong k t -> (k' <= k)%nat -> shaped k' (firstn (N.to_nat (node_count k')) t) ->
  (forall j, leaf_at (firstn (N.to_nat (node_count k')) t) j = leaf_at t j) -> strong k' (firstn (N.to_nat (node_count k')) t).
Proof.
  intros (Sh & L & I & P) Hle Sh' HL. split; [assumption|].
  assert (In' : forall q, in_tree k' q -> in_tree k (repeat false (k - k') ++ q)).
  { intros q Hq. unfold in_tree in *. rewrite app_length, repeat_length. lia. }
  splits.
  - intros q pn u Hq E Hu. rewrite (at_path_firstn k) in E by (auto; apply Sh). destruct (L _ pn u (In' q Hq) E Hu) as (L1 & L2 & L3).
    pose proof (above_pad_small k k' q u Hle Hq L1 L2) as Hu'. splits; auto.
    + rewrite (leafPath_pad k k' u Hle Hu') in L2. exact (proj1 (above_pad _ _ _) L2).
    + now rewrite HL.
  - intros q pn Hq E. rewrite (at_path_firstn k) in E by (auto; apply Sh). eauto.
  - intros q pn u j Hq E Hu Hj Ha. rewrite (at_path_firstn k) in E by (auto; apply Sh). rewrite HL.
    destruct (L _ pn u (In' q Hq) E Hu) as (L1 & L2 & L3). pose proof (above_pad_small k k' q u Hle Hq L1 L2) as Hu'.
    apply (P _ pn u j (In' q Hq) E Hu Hj). rewrite (leafPath_pad k k' j Hle) by lia. exact (proj2 (above_pad _ _ _) Ha).
Qed.

Lemma strong_truncated k t t' : strong k t -> truncated k t t' -> strong_rule t'.
Proof.
  intros S T. pose proof (truncated_leaf k t t' (proj1 S) T) as HL. pose proof (truncated_shaped k t t' (proj1 S) T) as W.
  destruct T as [[-> _]|(k' & Hle & F' & -> & _)]; [now left|]. right. exists k'.
  destruct W as [E|(k2 & Sh')]; [exfalso; destruct F' as [_ L']; rewrite E, node_leaf_count in L'; pose proof (leaf_count_pos k'); change (lenN (@nil (option node))) with 0 in L'; lia|].
  rewrite <- (height_unique k' k2 _ F' (shaped_full _ _ Sh')) in Sh'. now apply (strong_firstn k).
Qed.

Lemma strong_grown k t : strong k t -> fits (S k) -> strong (S k) (grown t).
Proof.
  intros (Sh & L & I & P) Hk. pose proof (shaped_grown k t Sh Hk) as Sh'. pose proof (shaped_full _ _ Sh) as F.
  pose proof (leaf_count_lt k (S k) ltac:(lia)) as HC. pose proof (leaf_count_pos k) as HC0.
  assert (G : forall q pn, in_tree (S k) q -> at_path (S k) (grown t) q = Some (NParent pn) -> exists r, q = false :: r /\ in_tree k r /\ at_path k t r = Some (NParent pn)).
  { intros q pn Hq E. rewrite (at_path_grown k) in E by auto. destruct q as [|[|] r]; try discriminate. exists r. splits; auto. unfold in_tree in *. cbn in Hq. lia. }
  split; [assumption|]. splits.
  - intros q pn u Hq E Hu. destruct (G q pn Hq E) as (r & -> & Hr & E'). destruct (L r pn u Hr E' Hu) as (L1 & L2 & L3).
    rewrite leaf_at_grown. splits; auto; [lia|]. rewrite leafPath_S by assumption. destruct L2 as (b & s & ->). exists b, s. reflexivity.
  - intros q pn Hq E. destruct (G q pn Hq E) as (r & -> & Hr & E'). eauto.
  - intros q pn u j Hq E Hu Hj Ha. destruct (G q pn Hq E) as (r & -> & Hr & E'). destruct (L r pn u Hr E' Hu) as (L1 & L2 & L3).
    rewrite leaf_at_grown. apply (P r pn u j Hr E' Hu Hj). rewrite leafPath_S in Ha by lia. destruct Ha as (b & s & Ha). injection Ha as Ha. exists b, s. exact Ha.
Qed.
Lemma strong_grown_nil : strong 0 (grown []).
Proof.
  split; [apply shaped_grown_nil|]. assert (G : forall q, in_tree 0 q -> at_path 0 (grown (@nil (option node))) q = None).
  { intros q Hq. unfold in_tree in Hq. destruct q; [reflexivity|cbn in Hq; lia]. }
  splits; intros q pn; intros; match goal with H : at_path 0 _ q = _, I : in_tree 0 q |- _ => rewrite (G q I) in H; discriminate end.
Qed.

Lemma sorted_snoc l x : StronglySorted N.lt l -> (forall y, In y l -> y < x) -> StronglySorted N.lt (l ++ [x]).
Proof.
  induction 1 as [|a l H IH Ha]; intros Hx; cbn [app]; [constructor; constructor|].
  constructor; [apply IH; intros; apply Hx; now right|]. apply Forall_app. split; [assumption|]. constructor; [apply Hx; now left|constructor].
Qed.

Lemma strong_added k t t' li l : strong k t -> added k t t' li l -> leaf_at t li = None -> (forall j, j < li -> leaf_at t j <> None) -> strong k t'.
Proof.
  intros (Sh & L & I & P) A Hfree Hbefore. pose proof (added_leaf k t t' li l Sh A) as [AL AO]. destruct A as (Sh' & Hli & A1 & A2 & A3).
  assert (M : forall u, leaf_at t u <> None -> leaf_at t' u <> None).
  { intros u Hu. destruct (N.eq_dec u li) as [->|Hne]; [congruence|]. now rewrite AO. }
  assert (G : forall q pn, in_tree k q -> at_path k t' q = Some (NParent pn) ->
     (at_path k t q = Some (NParent pn)) \/
     (above q (leafPath k li) /\ exists pn0, at_path k t q = Some (NParent pn0) /\ pn_unmergedLeaves pn = pn_unmergedLeaves pn0 ++ [li])).
  { intros q pn Hq E. destruct (above_dec q (leafPath k li)) as [Ha|Ha].
    - right. split; [assumption|]. rewrite A2 in E by auto. destruct (at_path k t q) as [[|pn0]|]; try discriminate. exists pn0. split; [reflexivity|].
      cbn in E. injection E as <-. reflexivity.
    - left. destruct (path_eq_dec q (leafPath k li)) as [->|Hne]; [congruence|]. now rewrite A3 in E. }
  assert (Old : forall q pn0, in_tree k q -> above q (leafPath k li) -> at_path k t q = Some (NParent pn0) -> forall u, In u (pn_unmergedLeaves pn0) -> u < li).
  { intros q pn0 Hq Ha E u Hu. destruct (L q pn0 u Hq E Hu) as (L1 & L2 & L3).
    destruct (N.lt_trichotomy u li) as [|[->|Hlt]]; [assumption|contradiction|]. exfalso. exact (P q pn0 u li Hq E Hu Hlt Ha Hfree). }
  split; [assumption|]. splits.
  - intros q pn u Hq E Hu. destruct (G q pn Hq E) as [E0|(Ha & pn0 & E0 & EU)].
    + destruct (L q pn u Hq E0 Hu) as (L1 & L2 & L3). auto.
    + rewrite EU in Hu. apply in_app_iff in Hu. destruct Hu as [Hu|[<-|[]]].
      * destruct (L q pn0 u Hq E0 Hu) as (L1 & L2 & L3). auto.
      * splits; auto. congruence.
  - intros q pn Hq E. destruct (G q pn Hq E) as [E0|(Ha & pn0 & E0 & EU)]; [eauto|]. rewrite EU. apply sorted_snoc; eauto.
  - intros q pn u j Hq E Hu Hj Hab. apply M. destruct (G q pn Hq E) as [E0|(Ha & pn0 & E0 & EU)]; [eauto|].
    rewrite EU in Hu. apply in_app_iff in Hu. destruct Hu as [Hu|[<-|[]]]; [eauto|auto].
Qed.

Section WithCrypto.
Context {C : crypto}.

Lemma strong_merged cs k t t' li up : strong k t -> shaped k t' -> merged cs k t t' li up -> strong k t'.
Proof.
  intros S Sh' (F' & Hli & A' & L' & B' & O'). set (p := leafPath k li) in *. apply (strong_fewer k t); auto. intros q pn Hq E.
  assert (Mem : forall u, u < leaf_count k -> leaf_at t u <> None -> leaf_at t' u <> None).
  { intros u Hu Hm. rewrite (leaf_at_path k) by auto. destruct (N.eq_dec u li) as [->|Hne]; [fold p; now rewrite A'|].
    rewrite O'; [rewrite (leaf_at_path k) in Hm by (auto; apply S); assumption|apply leafPath_in|intros E'; apply leafPath_inj in E'; auto|apply leaf_not_above]. }
  destruct (path_eq_dec q p) as [->|Hne].
  { exfalso. apply (proj2 Sh') in E; [|assumption]. cbn in E. unfold p in E. rewrite leafPath_length in E. lia. }
  destruct (above_dec q p) as [Ha|Ha].
  - left. destruct (in_dec path_eq_dec q (map fst (filtered k t p))) as [Hin|Hin]; [|rewrite B' in E by auto; discriminate].
    clear -L' Hin E. revert L' Hin. generalize (filtered k t p) (up_nodes up) (ln_parentHash (up_leafNode up)).
    induction l as [|[a s] l IH]; intros [|u us] h H Hin; cbn [linked] in H; try contradiction.
    destruct H as (h' & H1 & _ & H2). destruct Hin as [<-|Hin]; [cbn [fst] in *; rewrite H1 in E; injection E as <-; reflexivity|eauto].
  - right. rewrite O' in E by auto. split; [assumption|]. auto.
Qed.

(** ** The operations *)
Lemma strong_update t li l t' : strong_rule t -> update t li (NLeaf l) = Ok t' -> strong_rule t'.
Proof.
  intros R H. assert (W : well_shaped t) by (destruct R as [->|(k & Sh & _)]; [now left|right; eauto]).
  destruct (update_shape t li l t' W H) as (k & Sh & Rp & Sh'). right. exists k. eapply strong_replaced; eauto. now apply strong_of_rule.
Qed.
Lemma strong_remove t li t' : strong_rule t -> Tree.remove t li = Ok t' -> strong_rule t'.
Proof.
  intros R H. assert (W : well_shaped t) by (destruct R as [->|(k & Sh & _)]; [now left|right; eauto]).
  destruct (remove_shape t li t' W H) as (k & t1 & Sh & Rp & Sh1 & T & _). eapply strong_truncated; [|exact T]. eapply strong_replaced; eauto. now apply strong_of_rule.
Qed.
Lemma strong_add t l t' : strong_rule t -> vadd t l = Ok t' -> strong_rule t'.
Proof.
  intros R H. assert (W : well_shaped t) by (destruct R as [->|(k & Sh & _)]; [now left|right; eauto]).
  destruct (add_shape t l t' W H) as (k & t0 & li & [HL1 HL2] & HT & HS & HA). right. exists k.
  assert (S0 : strong k t0).
  { destruct HT as [->|[-> _]]; [now apply strong_of_rule|]. destruct R as [->|(k' & Sh & R)].
    - rewrite (height_unique k 0 _ (shaped_full _ _ HS) full_grown_nil). apply strong_grown_nil.
    - assert (E : k = S k').
      { destruct HS as [[_ L] _]. pose proof (shaped_full _ _ Sh) as [Hk' L'].
        assert (L2 : lenN (grown t) = node_count (S k')).
        { unfold grown, lenN. rewrite app_length, repeat_length. unfold lenN in L'. rewrite node_leaf_count in L' |- *.
          assert (leaf_count (S k') = 2 * leaf_count k') by (unfold leaf_count; now rewrite Nat2N.inj_succ, N.pow_succ_r').
          pose proof (leaf_count_pos k'). lia. }
        destruct HA as ((F & _) & _). rewrite L in L2. rewrite !node_leaf_count in L2. pose proof (leaf_count_pos k). pose proof (leaf_count_pos (S k')).
        destruct (Nat.lt_trichotomy k (S k')) as [Lt|[->|Lt]]; [|reflexivity|]; apply leaf_count_lt in Lt; lia. }
      subst k. apply strong_grown; [split; assumption|]. apply HS. }
  assert (LG : forall j, leaf_at t0 j = leaf_at t j) by (intros j; destruct HT as [->|[-> _]]; [reflexivity|apply leaf_at_grown]).
  eapply strong_added; eauto.
  - now rewrite LG.
  - intros j Hj. rewrite LG. auto.
Qed.
Lemma strong_apply t props senders t' : strong_rule t -> vapply t props senders = Ok t' -> strong_rule t'.
Proof.
  intros R H. rewrite vapply_eq in H. apply rbind_ok in H. destruct H as (t1 & H1 & H). apply rbind_ok in H. destruct H as (t2 & H2 & H).
  assert (R1 : strong_rule t1).
  { revert H1. apply foldM_inv; [|assumption]. intros s [i p] s' _ Hs E. unfold updStep in E. cbn [fst snd] in E.
    destruct p; rinv; try (now subst). eapply strong_update; eauto. }
  assert (R2 : strong_rule t2).
  { revert H2. apply foldM_inv; [|assumption]. intros s p s' _ Hs E. unfold remStep in E. destruct p; try (apply Ok_inj in E; now subst). eapply strong_remove; eauto. }
  revert H. apply foldM_inv; [|assumption]. intros s p s' _ Hs E. unfold addStep in E. destruct p; try (apply Ok_inj in E; now subst). eapply strong_add; eauto.
Qed.
Lemma strong_merge cs t li up t' : strong_rule t -> t <> [] -> mergeUpdatePath cs t li up = Ok t' -> strong_rule t'.
Proof.
  intros [->|(k & S)] Hn H; [congruence|]. destruct (mergeUpdatePath_sound cs k t li up t' (proj1 S) H) as [Sh' M].
  right. exists k. eapply strong_merged; eauto.
Qed.
End WithCrypto.
