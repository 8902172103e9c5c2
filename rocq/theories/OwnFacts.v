(** Facts about the nodes of a member. *)
From Coq Require Import Lia.
From Verif Require Export SpecOwn PathFacts JoinPathFacts ObtainedFacts IntegrityFacts KeyFacts.

Lemma aos_prefix (a p q : path) : ancestor_or_self (a ++ p) (a ++ q) <-> ancestor_or_self p q.
Proof.
  split; intros [s E]; exists s.
  - rewrite <- app_assoc in E. now apply app_inv_head in E.
  - rewrite <- app_assoc. now rewrite E.
Qed.
Lemma leafPath_up k li d : li < leaf_count k -> leafPath (d + k) li = repeat false d ++ leafPath k li.
Proof.
  intros H. induction d as [|d IH]; [reflexivity|]. cbn [plus repeat app]. rewrite leafPath_S, IH; [reflexivity|].
  eapply N.lt_le_trans; [exact H|]. apply leaf_count_le. lia.
Qed.
Lemma leaf_count_spec k li : li < leaf_count k <-> li / leaf_count k = 0.
Proof. unfold leaf_count. split; intros H; [now apply N.div_small|]. apply N.div_small_iff; [|assumption]. now apply N.pow_nonzero. Qed.

(** Within a tree of height [k] *)
Lemma own_in_tree k li p : fits k -> li < 2 ^ 31 -> in_tree k p -> own_node li (number k p) <-> li < leaf_count k /\ ancestor_or_self p (leafPath k li).
Proof.
  intros Hk Hli Hp. assert (E : number k p = number 31 (repeat false (31 - k) ++ p)).
  { replace 31%nat with ((31 - k) + k)%nat at 1 by (unfold fits in Hk; lia). symmetry. apply number_left. }
  assert (Hin : in_tree 31 (repeat false (31 - k) ++ p)) by (unfold in_tree, fits in *; rewrite app_length, repeat_length; lia).
  assert (Hl : li < leaf_count k -> leafPath 31 li = repeat false (31 - k) ++ leafPath k li).
  { intros H. replace 31%nat with ((31 - k) + k)%nat at 1 by (unfold fits in Hk; lia). now apply leafPath_up. }
  split.
  - intros (q & Hq & Eq). assert (q = repeat false (31 - k) ++ p) as ->.
    { apply (number_inj 31); [|assumption|congruence]. unfold in_tree. apply aos_length in Hq. now rewrite leafPath_length in Hq. }
    assert (Hlt : li < leaf_count k).
    { destruct Hq as [s Es]. rewrite <- app_assoc in Es. assert (X : val (leafPath 31 li) = li) by (rewrite leafPath_val; apply N.mod_small; exact Hli).
      rewrite <- X, Es, val_app. assert (V : val (repeat false (31 - k)) = 0).
      { generalize (31 - k)%nat. intros n. induction n as [|n IH]; [reflexivity|]. cbn [repeat val N.b2n]. rewrite IH. reflexivity. }
      rewrite V, N.mul_0_l, N.add_0_l. assert (L : lenN (p ++ s) = N.of_nat k).
      { apply (f_equal (@length bool)) in Es. rewrite leafPath_length, app_length, repeat_length in Es. unfold lenN. unfold fits in Hk. lia. }
      pose proof (val_lt (p ++ s)) as Y. rewrite L in Y. exact Y. }
    split; [assumption|]. rewrite (Hl Hlt) in Hq. exact (proj1 (aos_prefix _ _ _) Hq).
  - intros [Hlt Ha]. exists (repeat false (31 - k) ++ p). split; [|exact E]. rewrite (Hl Hlt). exact (proj2 (aos_prefix _ _ _) Ha).
Qed.

Lemma own_leaf_node li : li < 2 ^ 31 -> own_node li (2 * li).
Proof.
  intros H. exists (leafPath 31 li). split; [apply aos_refl|]. symmetry. apply leafPath_number. exact H.
Qed.
Lemma own_leaf_node_inv li j : li < 2 ^ 31 -> j < 2 ^ 31 -> own_node li (2 * j) -> j = li.
Proof.
  intros H Hj (p & Ha & E). rewrite <- (leafPath_number 31 j) in E by exact Hj. apply number_inj in E.
  - subst p. apply aos_same in Ha; [|now rewrite !leafPath_length]. now apply leafPath_inj in Ha.
  - apply leafPath_in.
  - unfold in_tree. apply aos_length in Ha. now rewrite leafPath_length in Ha.
Qed.
Lemma designated_lt u : designated u < 2 ^ 31.
Proof. apply N.mod_lt. discriminate. Qed.

Lemma in_array k t x n : full k t -> nth_error t (N.to_nat x) = Some (Some n) -> exists p : path, in_tree k p /\ x = number k p /\ @at_path node k t p = Some n.
Proof.
  intros F H. assert (Hx : x < node_count k).
  { rewrite <- (proj2 F). unfold lenN. assert (N.to_nat x < length t)%nat by (apply nth_error_Some; congruence). lia. }
  destruct (number_onto k x Hx) as (p & Hp & <-). exists p. splits; auto. unfold at_path. now rewrite H.
Qed.
Lemma at_path_nth {A} k (t : list (option A)) p n : at_path k t p = Some n <-> nth_error t (N.to_nat (number k p)) = Some (Some n).
Proof. unfold at_path. destruct (nth_error t _) as [o|]; split; congruence. Qed.

(** ** Clearing *)
Lemma cleared_paths k li t : full k t -> li < 2 ^ 31 ->
  cleared li t <-> (li < leaf_count k -> forall p, in_tree k p -> ancestor_or_self p (leafPath k li) -> at_path k t p = None).
Proof.
  intros F Hli. split.
  - intros H Hlt p Hp Ha. destruct (at_path k t p) as [n|] eqn:E; [|reflexivity]. exfalso. apply at_path_nth in E. eapply H; [|exact E].
    apply own_in_tree; auto. apply F.
  - intros H x n Ho E. destruct (in_array k t x n F E) as (p & Hp & -> & Ep). apply own_in_tree in Ho; auto; [|apply F]. destruct Ho as [Hlt Ha].
    rewrite (H Hlt p Hp Ha) in Ep. discriminate.
Qed.
Lemma cleared_firstn li t n : cleared li t -> cleared li (firstn n t).
Proof.
  intros H x m Ho E. apply (H x m Ho). rewrite <- E. symmetry. assert (N.to_nat x < length (firstn n t))%nat by (apply nth_error_Some; congruence).
  rewrite firstn_length in H0. clear -H0. revert n t H0. generalize (N.to_nat x). intros i. induction i as [|i IH]; intros [|n] [|a t] H; cbn in *; try lia; auto.
  apply IH. lia.
Qed.
Lemma cleared_grown li t : cleared li t -> cleared li (grown t).
Proof.
  intros H x m Ho E. unfold grown in E. destruct (Nat.lt_ge_cases (N.to_nat x) (length t)) as [Hlt|Hge].
  - rewrite nth_error_app1 in E by assumption. eapply H; eauto.
  - rewrite nth_error_app2 in E by assumption. apply nth_error_In, repeat_spec in E. discriminate.
Qed.
Lemma cleared_truncated k li t t' : truncated k t t' -> cleared li t -> cleared li t'.
Proof.
  intros [[-> _]|(k' & _ & _ & -> & _)] H; [|now apply cleared_firstn]. intros x n _ E. destruct (N.to_nat x); discriminate.
Qed.
Lemma cleared_replaced k li t t' j o : full k t -> li < 2 ^ 31 -> replaced k t t' j o -> j <> li -> cleared li t -> cleared li t'.
Proof.
  intros F Hli (F' & Hj & H1 & H2 & H3) Hne H. apply (cleared_paths k); auto. intros Hlt p Hp Ha.
  destruct (path_eq_dec p (leafPath k j)) as [->|Hn].
  - exfalso. apply aos_same in Ha; [|now rewrite !leafPath_length]. apply leafPath_inj in Ha; auto.
  - destruct (above_dec p (leafPath k j)) as [Hb|Hb]; [now apply H2|]. rewrite H3 by assumption. now apply (proj1 (cleared_paths k li t F Hli) H Hlt).
Qed.
Lemma cleared_by_removal k li t t' : full k t -> li < 2 ^ 31 -> replaced k t t' li None -> cleared li t'.
Proof.
  intros F Hli (F' & Hj & H1 & H2 & H3). apply (cleared_paths k); auto. intros Hlt p Hp Ha. apply aos_above in Ha. destruct Ha as [->|Ha]; auto.
Qed.
Lemma cleared_added k li t t' j l : full k t -> li < 2 ^ 31 -> added k t t' j l -> j <> li -> cleared li t -> cleared li t'.
Proof.
  intros F Hli (F' & Hj & H1 & H2 & H3) Hne H. apply (cleared_paths k); [apply F'|assumption|]. intros Hlt p Hp Ha.
  pose proof (proj1 (cleared_paths k li t F Hli) H Hlt p Hp Ha) as B.
  destruct (path_eq_dec p (leafPath k j)) as [->|Hn].
  - exfalso. apply aos_same in Ha; [|now rewrite !leafPath_length]. apply leafPath_inj in Ha; auto.
  - destruct (above_dec p (leafPath k j)) as [Hb|Hb]; [rewrite H2 by assumption|rewrite H3 by assumption]; now rewrite B.
Qed.

(** A member is in the tree, or its nodes are blank. *)
Definition present (li : N) (t : ratchetTree) : Prop := leaf_at t li <> None \/ cleared li t.
Lemma present_update t j l t' li : well_shaped t -> li < 2 ^ 31 -> update t j (NLeaf l) = Ok t' -> leaf_at t li <> None -> leaf_at t' li <> None.
Proof.
  intros W _ H Hp. destruct (update_members t j l t' W H) as (_ & H1 & H2). destruct (N.eq_dec li (designated j)) as [->|Hn]; [rewrite H1; discriminate|].
  now rewrite H2.
Qed.
Lemma present_remove t j t' li : well_shaped t -> li < 2 ^ 31 -> Tree.remove t j = Ok t' -> present li t -> present li t'.
Proof.
  intros W Hli H Hp. destruct (N.eq_dec li (designated j)) as [->|Hn].
  - right. destruct (remove_shape t j t' W H) as (k & t1 & Sh & R & Sh1 & T & W'). eapply cleared_truncated; [exact T|]. eapply cleared_by_removal; eauto.
    now apply shaped_full.
  - destruct Hp as [Hp|Hp].
    + left. destruct (remove_members t j t' W H) as (_ & _ & H2). now rewrite H2.
    + right. destruct (remove_shape t j t' W H) as (k & t1 & Sh & R & Sh1 & T & W'). eapply cleared_truncated; [exact T|].
      eapply cleared_replaced; eauto. now apply shaped_full.
Qed.
Lemma present_add t l t' li : well_shaped t -> li < 2 ^ 31 -> vadd t l = Ok t' -> present li t -> present li t'.
Proof.
  intros W Hli H Hp. destruct (add_shape t l t' W H) as (k & t0 & j & Hfree & Ht0 & Sh & A).
  destruct (added_leaf k t0 t' j l Sh A) as [L1 L2]. destruct (N.eq_dec li j) as [->|Hn]; [left; rewrite L1; discriminate|].
  destruct Hp as [Hp|Hp].
  - left. rewrite L2 by assumption. destruct Ht0 as [->|[-> _]]; [assumption|]. now rewrite leaf_at_grown.
  - right. eapply cleared_added; eauto; [now apply shaped_full|]. destruct Ht0 as [->|[-> _]]; [assumption|]. now apply cleared_grown.
Qed.
Lemma present_apply t l t' li : well_shaped t -> li < 2 ^ 31 -> vapply t (map fst l) (map snd l) = Ok t' -> leaf_at t li <> None -> present li t'.
Proof.
  intros W Hli H Hp. destruct (vapply_parts t l t' W H) as (t1 & t2 & E1 & W1 & W2 & E2 & E3 & _).
  assert (P1 : leaf_at t1 li <> None).
  { clear -W E1 Hp Hli. revert t t1 W E1 Hp. induction l as [|[p s] l IH]; intros t t1 W H Hp; cbn [foldM] in H; [apply Ok_inj in H; now subst|].
    apply rbind_ok in H. destruct H as (ta & Ha & H). unfold updPair in Ha. cbn [fst snd] in Ha.
    destruct p as [kp|n|rm|id|ri|ko|exts]; try (apply Ok_inj in Ha; subst; eapply IH; [exact W|exact H|exact Hp]).
    eapply IH; [|exact H|]; [apply (update_members _ _ _ _ W Ha)|]. exact (present_update _ _ _ _ _ W Hli Ha Hp). }
  assert (P2 : present li t2).
  { apply (or_introl (B := cleared li t1)) in P1. fold (present li t1) in P1. clear -W1 E2 P1 Hli. revert t1 t2 W1 E2 P1. induction (map fst l) as [|p ps IH]; intros t1 t2 W H Hp; cbn [foldM] in H; [apply Ok_inj in H; now subst|].
    apply rbind_ok in H. destruct H as (ta & Ha & H). unfold remStep in Ha.
    destruct p as [kp|n|rm|id|ri|ko|exts]; try (apply Ok_inj in Ha; subst; eapply IH; [exact W|exact H|exact Hp]).
    eapply IH; [|exact H|]; [apply (remove_members _ _ _ W Ha)|]. exact (present_remove _ _ _ _ W Hli Ha Hp). }
  clear -W2 E3 P2 Hli. revert t2 t' W2 E3 P2. induction (map fst l) as [|p ps IH]; intros t1 t2 W H Hp; cbn [foldM] in H; [apply Ok_inj in H; now subst|].
  apply rbind_ok in H. destruct H as (ta & Ha & H). unfold addStep in Ha.
  destruct p as [kp|n|rm|id|ri|ko|exts]; try (apply Ok_inj in Ha; subst; eapply IH; [exact W|exact H|exact Hp]).
  eapply IH; [|exact H|]; [apply (add_members _ _ _ W Ha)|]. exact (present_add _ _ _ _ W Hli Ha Hp).
Qed.

(** ** Lists of unmerged leaves, with a copy of the tree *)
Definition listedH (h : heap) (t : ptree) : Prop :=
  forall i p pn u, nth_error t i = Some (Some p) -> nth_error h p = Some (NParent pn) -> In u (pn_unmergedLeaves pn) -> own_node (designated u) (N.of_nat i).
Lemma listedH_value h t : listedH h t <-> lists_below (deref h t).
Proof.
  unfold listedH, lists_below, deref. split.
  - intros H x pn u E Hu. rewrite nth_error_map in E. destruct (nth_error t (N.to_nat x)) as [[p|]|] eqn:Et; try discriminate. cbn in E.
    rewrite <- (N2Nat.id x). eapply H; eauto. congruence.
  - intros H i p pn u Et Ep Hu. apply (H (N.of_nat i) pn u); auto. rewrite Nat2N.id, nth_error_map, Et. cbn. now rewrite Ep.
Qed.

(** [t'] is a copy of [t], modified. *)
Definition joint (h : heap) (t t' : ptree) : Prop :=
  pointers_in h t /\ pointers_in h t' /\
  (forall i j p, nth_error t i = Some (Some p) -> nth_error t' j = Some (Some p) -> i = j) /\ apart t' /\
  listedH h t /\ listedH h t'.

Definition fewer {A} (t t' : list (option A)) : Prop := forall i p, nth_error t' i = Some (Some p) -> nth_error t i = Some (Some p).
Lemma fewer_refl {A} (t : list (option A)) : fewer t t.
Proof. intros i p H. exact H. Qed.
Lemma fewer_trans {A} (a b c : list (option A)) : fewer a b -> fewer b c -> fewer a c.
Proof. intros H1 H2 i p H. auto. Qed.
Lemma fewer_blank {A} (t : list (option A)) x t' : setN t x None = Ok t' -> fewer t t'.
Proof.
  intros E i p H. apply setN_ok in E. destruct E as [_ ->]. rewrite upd_nth in H. destruct (N.to_nat x =? i)%nat; [destruct (_ <? _)%nat; discriminate|assumption].
Qed.
Lemma fewer_blanks {A} xs : forall (t t' : list (option A)), foldM (fun t x => setN t x None) t xs = Ok t' -> fewer t t'.
Proof.
  induction xs as [|x xs IH]; intros t t' H; cbn [foldM] in H; [apply Ok_inj in H; subst; apply fewer_refl|].
  apply rbind_ok in H. destruct H as (t1 & E & H). eapply fewer_trans; [eapply fewer_blank; eauto|eauto].
Qed.
Lemma fewer_firstn {A} (t : list (option A)) n : fewer t (firstn n t).
Proof.
  intros i p H. revert i n H. induction t as [|a t IH]; intros [|i] [|n] H; cbn in *; try discriminate; auto. eapply IH; eauto.
Qed.
Lemma fewer_nil {A} (t : list (option A)) : fewer t [].
Proof. intros [|i] p H; discriminate. Qed.
Lemma fewer_grown {A} (t : list (option A)) : fewer t (grown t).
Proof.
  intros i p H. unfold grown in H. destruct (Nat.lt_ge_cases i (length t)) as [Hi|Hi]; [now rewrite nth_error_app1 in H|].
  rewrite nth_error_app2 in H by assumption. apply nth_error_In, repeat_spec in H. discriminate.
Qed.
Lemma fewer_remove {A} (t : list (option A)) j t' : Tree.remove t j = Ok t' -> fewer t t'.
Proof.
  intros E. unfold Tree.remove in E. cbv zeta in E. apply rbind_ok in E. destruct E as (t1 & E1 & E). apply rbind_ok in E. destruct E as (dp & _ & E).
  apply rbind_ok in E. destruct E as (t2 & E2 & E). apply rbind_ok in E. destruct E as ([lp|] & _ & E); apply Ok_inj in E; subst t'; [|apply fewer_nil].
  eapply fewer_trans; [eapply fewer_blank; eauto|]. eapply fewer_trans; [eapply fewer_blanks; eauto|]. destruct (lp <? _); [apply fewer_firstn|apply fewer_refl].
Qed.

Lemma joint_fewer h t t' t2 : joint h t t' -> fewer t' t2 -> joint h t t2.
Proof.
  intros (H1 & H2 & H3 & H4 & H5 & H6) F. splits; auto.
  - intros p Hp. apply In_nth_error in Hp. destruct Hp as (i & Hi). apply H2. eapply nth_error_In, F; eauto.
  - intros i j p Hi Hj. eapply H3; eauto.
  - intros i j p Hi Hj. eapply H4; eauto.
  - intros i p pn u Hi Hp. eapply H6; eauto.
Qed.
Lemma joint_fresh h t t' x l t2 : joint h t t' -> setN t' x (Some (length h)) = Ok t2 -> joint (h ++ [NLeaf l]) t t2.
Proof.
  intros (H1 & H2 & H3 & H4 & H5 & H6) E.
  assert (K : forall i p, nth_error t2 i = Some (Some p) -> nth_error t' i = Some (Some p) \/ i = N.to_nat x /\ p = length h).
  { intros i p H. apply setN_ok in E. destruct E as [_ ->]. rewrite upd_nth in H. destruct (Nat.eqb_spec (N.to_nat x) i) as [<-|Hn]; [|auto].
    destruct (_ <? _)%nat; [|discriminate]. right. injection H as <-. auto. }
  assert (Old : forall p n, (p < length h)%nat -> nth_error (h ++ [NLeaf l]) p = Some n -> nth_error h p = Some n) by (intros p n Hp Hn; now rewrite nth_error_app1 in Hn).
  assert (Lt : forall i p, nth_error t i = Some (Some p) -> (p < length h)%nat) by (intros i p H; apply H1; eapply nth_error_In; eauto).
  assert (Lt' : forall i p, nth_error t' i = Some (Some p) -> (p < length h)%nat) by (intros i p H; apply H2; eapply nth_error_In; eauto).
  splits.
  - intros p Hp. apply H1 in Hp. rewrite app_length. lia.
  - intros p Hp. rewrite app_length. cbn [length]. apply In_nth_error in Hp. destruct Hp as (i & Hi). apply K in Hi. destruct Hi as [Hi|[_ ->]]; [apply Lt' in Hi|]; lia.
  - intros i j p Hi Hj. apply K in Hj. destruct Hj as [Hj|[_ ->]]; [eauto|]. apply Lt in Hi. lia.
  - intros i j p Hi Hj. apply K in Hi, Hj. destruct Hi as [Hi|[-> ->]], Hj as [Hj|[-> Ep]]; eauto.
    + subst p. apply Lt' in Hi. lia.
    + apply Lt' in Hj. lia.
  - intros i p pn u Hi Hp Hu. eapply H5; eauto.
  - intros i p pn u Hi Hp Hu. apply K in Hi. destruct Hi as [Hi|[-> ->]]; [eapply H6; eauto|].
    rewrite nth_error_app2, Nat.sub_diag in Hp by lia. discriminate.
Qed.
Lemma joint_mark h t t' x p q li : joint h t t' -> nth_error t' (N.to_nat x) = Some (Some p) -> nth_error h p = Some (NParent q) -> own_node (designated li) x ->
  joint (upd h p (NParent (addUnmergedLeaf q li))) t t'.
Proof.
  intros (H1 & H2 & H3 & H4 & H5 & H6) Ex Ep Ho.
  assert (K : forall i r pn u, (r = p -> i = N.to_nat x) -> (forall pn u, nth_error h r = Some (NParent pn) -> In u (pn_unmergedLeaves pn) -> own_node (designated u) (N.of_nat i)) ->
              nth_error (upd h p (NParent (addUnmergedLeaf q li))) r = Some (NParent pn) -> In u (pn_unmergedLeaves pn) -> own_node (designated u) (N.of_nat i)).
  { intros i r pn u Hr Hold Hn Hu. rewrite upd_nth in Hn. destruct (Nat.eqb_spec p r) as [<-|Hne]; [|eauto].
    destruct (_ <? _)%nat; [|discriminate]. injection Hn as <-. cbn [addUnmergedLeaf pn_unmergedLeaves] in Hu. apply in_app_iff in Hu.
    destruct Hu as [Hu|[<-|[]]]; [eauto|]. rewrite (Hr eq_refl), N2Nat.id. exact Ho. }
  splits; auto.
  - intros r Hr. rewrite upd_length. auto.
  - intros r Hr. rewrite upd_length. auto.
  - intros i r pn u Hi Hn Hu. eapply K; eauto. intros ->. eapply H3; eauto.
  - intros i r pn u Hi Hn Hu. eapply K; eauto. intros ->. eapply H4; eauto.
Qed.
Lemma joint_addUnmerged t t' li dp : (forall x, In x dp -> own_node (designated li) x) -> forall h h', joint h t t' -> addUnmergedH h t' li dp = Ok h' -> joint h' t t'.
Proof.
  induction dp as [|x dp IH]; intros Hdp h h' J H; unfold addUnmergedH in H; cbn [foldM] in H; [apply Ok_inj in H; now subst|].
  apply rbind_ok in H. destruct H as (h1 & E & H). fold (addUnmergedH h1 t' li dp) in H. eapply IH; [|idtac|exact H].
  - intros y Hy. apply Hdp. now right.
  - apply rbind_ok in E. destruct E as ([p|] & Ex & E); [|apply Ok_inj in E; now subst]. apply getN_ok in Ex.
    apply rbind_ok in E. destruct E as ([l|q] & Ep & E); [discriminate|]. apply Ok_inj in E. subst h1. unfold index in Ep.
    destruct (nth_error h p) as [n|] eqn:En; [|discriminate]. apply Ok_inj in Ep. subst n. eapply joint_mark; eauto. apply Hdp. now left.
Qed.
Lemma joint_add h t t' l h2 t2 : joint h t t' -> well_shaped (deref h t') -> addH h t' l = Ok (h2, t2) -> joint h2 t t2.
Proof.
  intros J W H. pose proof J as (_ & J2 & _ & J4 & _). destruct (addH_value h t' l (conj J2 J4)) as [V _]. rewrite H in V. cbn [rmap fst snd] in V. symmetry in V.
  destruct (add_shape _ _ _ W V) as (k & t0 & j & _ & _ & _ & A & _). pose proof (shaped_full _ _ A) as [Fk Lk]. clear A V. rewrite lenN_deref in Lk.
  unfold addH in H. apply rbind_ok in H. destruct H as ([t1 li] & E1 & H). cbv zeta in H.
  apply rbind_ok in H. destruct H as (dp & Edp & H). apply rbind_ok in H. destruct H as (h1 & Eu & H). cbn [alloc] in H.
  apply rbind_ok in H. destruct H as (t3 & E3 & H). apply Ok_inj in H. apply pair_equal_spec in H. destruct H as [<- <-].
  assert (F1 : fewer t' t1).
  { unfold addSlot in E1. apply rbind_ok in E1. destruct E1 as ([b i] & _ & E1). apply Ok_inj in E1. apply pair_equal_spec in E1. destruct E1 as [<- _].
    destruct b; [apply fewer_refl|apply (fewer_grown t')]. }
  assert (Full : full k t1) by (split; [assumption|]; rewrite <- Lk; symmetry; exact (setN_len _ _ _ _ E3)). clear Fk Lk. rename Full into Fk.
  eapply joint_fresh; [|exact E3]. eapply joint_addUnmerged; [|eapply joint_fewer; [exact J|exact F1]|exact Eu].
  assert (Hli : designated li < leaf_count k).
  { apply setN_ok in E3. destruct E3 as [Hlt _]. rewrite nodeIndexOf_designated in Hlt. apply (leaf_in_array k t1); [exact Fk|exact Hlt]. }
  rewrite nodeIndexOf_designated, (leaf_directPath k) in Edp by assumption. apply Ok_inj in Edp. subst dp.
  intros x Hx. apply in_map_iff in Hx. destruct Hx as (p & <- & Hp). apply above_In in Hp.
  apply own_in_tree; [apply Fk|apply designated_lt| |].
  - eapply above_in; eauto. apply leafPath_in.
  - split; [assumption|]. apply aos_above. auto.
Qed.

Lemma joint_update h t t' li l h2 t2 : joint h t t' -> updateH h t' li l = Ok (h2, t2) -> joint h2 t t2.
Proof.
  intros J H. unfold updateH, alloc in H. apply rbind_ok in H. destruct H as (t3 & E & H). apply Ok_inj in H. apply pair_equal_spec in H. destruct H as [<- <-].
  unfold update in E. cbv zeta in E. apply rbind_ok in E. destruct E as (t4 & E4 & E). apply rbind_ok in E. destruct E as (dp & _ & E).
  eapply joint_fewer; [|eapply fewer_blanks; exact E]. eapply joint_fresh; eauto.
Qed.
Lemma joint_apply h t t' props senders h2 t2 : joint h t t' -> well_shaped (deref h t') -> applyH h t' props senders = Ok (h2, t2) -> joint h2 t t2.
Proof.
  intros J W H. rewrite applyH_eq in H. apply rbind_ok in H. destruct H as ([h1 t1] & H1 & H). apply rbind_ok in H. destruct H as (t3 & H3 & H).
  set (P := fun s : heap * ptree => joint (fst s) t (snd s) /\ well_shaped (deref (fst s) (snd s))).
  assert (Pr : forall s, P s -> proper (fst s) (snd s)) by (intros s [(_ & A & _ & B & _) _]; split; assumption).
  assert (P1 : P (h1, t1)).
  { revert H1. apply (foldM_inv _ P); [|split; assumption]. intros [ha ta] [i p] [hb tb] _ Ps E. pose proof (Pr _ Ps) as Q. destruct Ps as [Ja Wa]. unfold updStepH in E. cbn [fst snd] in *.
    destruct p; try (apply Ok_inj in E; apply pair_equal_spec in E; destruct E as [<- <-]; split; assumption).
    apply rbind_ok in E. destruct E as (s & _ & E). split; cbn [fst snd]; [eapply joint_update; eauto|].
    destruct (updateH_value ha ta s l Q) as [V _]. rewrite E in V. cbn [rmap fst snd] in V. symmetry in V. now apply update_members in V. }
  assert (P3 : P (h1, t3)).
  { assert (G : forall x, foldM remStep t1 props = Ok x -> P (h1, x)).
    { intros x. apply (foldM_inv _ (fun x => P (h1, x))); [|exact P1]. intros ta p tb _ Ps E. pose proof (Pr _ Ps) as Q. destruct Ps as [Ja Wa]. unfold remStep in E. cbn [fst snd] in *.
      destruct p; try (apply Ok_inj in E; subst tb; split; assumption). split; cbn [fst snd]; [eapply joint_fewer; [exact Ja|eapply fewer_remove; eauto]|].
      pose proof (removeH_value h1 ta removed Q) as V. rewrite E in V. cbn [rmap] in V. symmetry in V. now apply remove_members in V. }
    auto. }
  assert (P2 : P (h2, t2)); [|apply P2].
  revert H. apply (foldM_inv _ P); [|exact P3]. intros [ha ta] p [hb tb] _ Ps E. pose proof (Pr _ Ps) as Q. destruct Ps as [Ja Wa]. unfold addStepH in E. cbn [fst snd] in *.
  destruct p as [kp| | | | | |]; try (apply Ok_inj in E; apply pair_equal_spec in E; destruct E as [<- <-]; split; assumption).
  split; cbn [fst snd]; [eapply joint_add; eauto|].
  destruct (addH_value ha ta (kp_leafNode kp) Q) as [V _]. rewrite E in V. cbn [rmap fst snd] in V. symmetry in V. now apply add_members in V.
Qed.
Lemma joint_self h t : proper h t -> lists_below (deref h t) -> joint h t t.
Proof. intros [H1 H2] H. apply listedH_value in H. splits; auto. Qed.
Theorem apply_lists h t props senders h2 t2 : proper h t -> well_shaped (deref h t) -> lists_below (deref h t) -> applyH h t props senders = Ok (h2, t2) ->
  lists_below (deref h2 t) /\ lists_below (deref h2 t2).
Proof.
  intros P W L H. destruct (joint_apply h t t props senders h2 t2 (joint_self h t P L) W H) as (_ & _ & _ & _ & H1 & H2). split; now apply listedH_value.
Qed.

(** ** Through an update path *)
Lemma lists_paths k t : full k t -> lists_below t <->
  forall p pn u, in_tree k p -> at_path k t p = Some (NParent pn) -> In u (pn_unmergedLeaves pn) -> designated u < leaf_count k /\ ancestor_or_self p (leafPath k (designated u)).
Proof.
  intros F. split.
  - intros H p pn u Hp Hn Hu. apply (own_in_tree k); [apply F|apply designated_lt|assumption|]. eapply H; eauto. now apply at_path_nth.
  - intros H x pn u Hn Hu. destruct (in_array k t x _ F Hn) as (p & Hp & -> & Ep). apply own_in_tree; [apply F|apply designated_lt|assumption|]. eapply H; eauto.
Qed.

Section WithCrypto.
Context {C : crypto}.

Lemma merged_lists cs k t t' li up : shaped k t -> merged cs k t t' li up -> lists_below t -> lists_below t'.
Proof.
  intros Sh M H. pose proof (shaped_full _ _ Sh) as F. pose proof M as (F' & _ & _ & L & _). apply (lists_paths k); [assumption|]. intros p pn u Hp Hn Hu.
  destruct (merged_node cs k t t' li up p (NParent pn) Sh M Hp Hn) as [[_ E]|[(i & s & v & E1 & _)|[_ E]]]; [discriminate| |].
  - exfalso. assert (Hin : In p (map fst (filtered k t (leafPath k li)))).
    { apply nth_error_In in E1. apply (in_map fst) in E1. exact E1. }
    destruct (linked_at _ _ _ _ _ _ _ L Hin) as (j & s' & v' & h' & _ & _ & E). rewrite E in Hn. injection Hn as <-. destruct Hu.
  - eapply (proj1 (lists_paths k t F) H); eauto.
Qed.

(** The end of [decryptPathSecrets] *)
Definition openPath (cs : N) (t : ratchetTree) (ctx : groupContext) (priv : privTree) (upn : updatePathNode) (copathNode ancestor : N) (tail : list N) : res (bytes * privTree) :=
  let! copathResolution := resolve t copathNode in
  let! _ := guard (lenN (upn_encryptedPathSecret upn) =? lenN copathResolution) "mls: invalid UpdatePathNode.encrypted_path_secret length" in
  let! found := findPriv priv O copathResolution in
  match found with
  | None => Err "mls: no private key found"
  | Some (resolutionIndex, nodePriv) =>
    let! ciphertext := index (upn_encryptedPathSecret upn) resolutionIndex in
    let! pathSecret := decryptPathSecret cs nodePriv ctx ciphertext in
    let! o := getN t ancestor in
    match o with
    | None => Panic "nil pointer dereference"
    | Some n =>
      let! nodePriv' := nodePrivFromPathSecret cs pathSecret (node_encryptionKey n) in
      let! priv1 := setN priv ancestor (Some nodePriv') in
      let! (priv2, pathSecret') := derivePath cs t priv1 pathSecret tail in
      let! commitSecret := deriveSecret cs pathSecret' (str "path") in
      Ok (commitSecret, priv2)
    end
  end.
Lemma openPath_eq cs t ctx priv upn copathNode ancestor tail : openPath cs t ctx priv upn copathNode ancestor tail =
  let! copathResolution := resolve t copathNode in
  let! _ := guard (lenN (upn_encryptedPathSecret upn) =? lenN copathResolution) "mls: invalid UpdatePathNode.encrypted_path_secret length" in
  let! found := findPriv priv O copathResolution in
  match found with
  | None => Err "mls: no private key found"
  | Some (resolutionIndex, nodePriv) =>
    let! ciphertext := index (upn_encryptedPathSecret upn) resolutionIndex in
    let! pathSecret := decryptPathSecret cs nodePriv ctx ciphertext in
    let! o := getN t ancestor in
    match o with
    | None => Panic "nil pointer dereference"
    | Some n =>
      let! nodePriv' := nodePrivFromPathSecret cs pathSecret (node_encryptionKey n) in
      let! priv1 := setN priv ancestor (Some nodePriv') in
      let! (priv2, pathSecret') := derivePath cs t priv1 pathSecret tail in
      let! commitSecret := deriveSecret cs pathSecret' (str "path") in
      Ok (commitSecret, priv2)
    end
  end.
Proof. reflexivity. Qed.
Lemma decryptPathSecrets_eq cs t ctx s r path priv : decryptPathSecrets cs t ctx s r path priv =
  let! fdp := filteredDirectPath t (nodeIndexOf s) in
  let! _ := guard (lenN (up_nodes path) =? lenN fdp) "mls: invalid UpdatePath length" in
  match position (commonAncestor (nodeIndexOf s) (nodeIndexOf r)) fdp with
  | None => Err "mls: cannot find recipient ancestor"
  | Some i =>
    let! upn := index (up_nodes path) i in
    match (if nodeIndexOf r <? nodeIndexOf s then left (commonAncestor (nodeIndexOf s) (nodeIndexOf r)) else right (commonAncestor (nodeIndexOf s) (nodeIndexOf r))) with
    | None => Panic "unreachable"
    | Some c => openPath cs t ctx priv upn c (commonAncestor (nodeIndexOf s) (nodeIndexOf r)) (skipn (S i) fdp)
    end
  end.
Proof. unfold decryptPathSecrets, openPath. cbv zeta. reflexivity. Qed.

Lemma position_some x l : forall i, position x l = Some i -> exists l1 l2, l = l1 ++ x :: l2 /\ length l1 = i.
Proof.
  induction l as [|y l IH]; intros i H; cbn [position] in H; [discriminate|]. destruct (N.eqb_spec y x) as [->|Hn].
  - injection H as <-. exists [], l. auto.
  - destruct (position x l) as [j|]; [|discriminate]. injection H as <-. destruct (IH j eq_refl) as (l1 & l2 & -> & <-). exists (y :: l1), l2. auto.
Qed.
Lemma map_split {A B} (f : A -> B) l : forall l1 x l2, map f l = l1 ++ x :: l2 -> exists m1 y m2, l = m1 ++ y :: m2 /\ map f m1 = l1 /\ f y = x /\ map f m2 = l2.
Proof.
  induction l as [|a l IH]; intros l1 x l2 H; [destruct l1; discriminate|]. destruct l1 as [|b l1]; cbn in H.
  - injection H as <- <-. exists [], a, l. auto.
  - injection H as <- H. destruct (IH _ _ _ H) as (m1 & y & m2 & -> & <- & <- & <-). exists (a :: m1), y, m2. auto.
Qed.

(** Either an error, or a path from the node above both leaves *)
Lemma decrypt_cases_path cs k t ctx li me up priv : shaped k t -> designated li < leaf_count k -> me < 2 ^ 31 ->
  (exists e, decryptPathSecrets cs t ctx li me up priv = Err e) \/
  exists a b s1 s2 upn tail, me < leaf_count k /\ leafPath k (designated li) = a ++ b :: s1 /\ leafPath k me = a ++ negb b :: s2 /\
    (forall x, In x tail -> own_node me x) /\
    (exists c m1 m2, filtered k t (leafPath k (designated li)) = m1 ++ (a, c) :: m2 /\ tail = map (number k) (map fst m2)) /\
    decryptPathSecrets cs t ctx li me up priv = openPath cs t ctx priv upn (number k (a ++ [negb b])) (number k a) tail.
Proof.
  intros Sh Hs Hme. pose proof (shaped_full _ _ Sh) as F. pose proof F as [Hk Ht]. rewrite decryptPathSecrets_eq, (nodeIndexOf_designated li).
  assert (Em : nodeIndexOf me = 2 * me) by (unfold nodeIndexOf; apply w32_small; change (2 ^ 32) with (2 * 2 ^ 31); lia). rewrite Em.
  set (s := designated li) in *. 
  assert (Ef : filteredDirectPath t (2 * s) = Ok (map (number k) (map fst (filtered k t (leafPath k s))))).
  { rewrite <- (leafPath_number k s Hs). apply filteredDirectPath_ok; [assumption|apply leafPath_in]. }
  rewrite Ef. clear Ef. cbn [rbind].
  set (L := filtered k t (leafPath k s)). destruct (N.eqb_spec (lenN (up_nodes up)) (lenN (map (number k) (map fst L)))) as [El|]; cbn [guard rbind]; [|left; eauto].
  destruct (position _ _) as [i|] eqn:Ep; [|left; eauto]. right.
  apply position_some in Ep. destruct Ep as (l1 & l2 & Ep & Ei). rewrite map_map in Ep. pose proof (f_equal (@length N) Ep) as Elen.
  destruct (map_split _ _ _ _ _ Ep) as (m1 & [a c] & m2 & EL & E1 & E2 & E3). cbn [fst] in E2.
  assert (Hin : In (a, c) L) by (rewrite EL; apply in_elt). pose proof (filtered_In _ _ _ _ _ Hin) as (b & s1 & Es & Ec).
  assert (Ha : in_tree k a) by (unfold in_tree; apply (f_equal (@length bool)) in Es; rewrite leafPath_length, app_length in Es; cbn in Es; lia).
  assert (Hmek : me < leaf_count k).
  { destruct (commonAncestor_leaves 31 s me) as (q & Hq & Eq & _ & A2 & _); [unfold fits; lia|eapply N.lt_le_trans; [exact Hs|apply leaf_count_le; exact Hk]|exact Hme|].
    apply (proj1 (own_in_tree k me a Hk Hme Ha)). rewrite E2, Eq. exists q. auto. }
  assert (Hne : s <> me).
  { intros E. rewrite <- E in E2. destruct (commonAncestor_leaves k s s Hk Hs Hs) as (q & Hq & Eq & A1 & _ & A3). specialize (A3 _ (aos_refl _) (aos_refl _)).
    apply aos_same in A1; [|apply Nat.le_antisymm; [now apply aos_length|now apply aos_length]]. rewrite Eq, A1 in E2. apply number_inj in E2; [|assumption|apply leafPath_in].
    apply (above_not_self a). rewrite E2 at 2. exists b, s1. exact Es. }
  destruct (leaves_part k s me Hs Hmek Hne) as (a' & b' & r1 & r2 & P1 & P2).
  assert (I1 : in_tree k (a' ++ b' :: r1)) by (rewrite <- P1; apply leafPath_in).
  assert (I2 : in_tree k (a' ++ negb b' :: r2)) by (rewrite <- P2; apply leafPath_in).
  assert (Eca : commonAncestor (2 * s) (2 * me) = number k a') by (rewrite <- (leafPath_number k s), <- (leafPath_number k me), P1, P2 by assumption; now apply commonAncestor_part).
  assert (a' = a).
  { rewrite Eca in E2. apply number_inj in E2; auto. unfold in_tree in *. rewrite app_length in I1. lia. }
  subst a'. assert (Ech : (if 2 * me <? 2 * s then left (commonAncestor (2 * s) (2 * me)) else right (commonAncestor (2 * s) (2 * me))) = Some (number k (a ++ [negb b']))).
  { rewrite Eca. rewrite <- (leafPath_number k s), <- (leafPath_number k me), P1, P2 by assumption. now apply part_child. }
  rewrite Ech. rewrite Eca. unfold index. destruct (nth_error (up_nodes up) i) as [upn|] eqn:Eu.
  2:{ exfalso. apply nth_error_None in Eu. unfold lenN in El. rewrite !map_length in El. rewrite map_length, app_length in Elen. cbn [length] in Elen. lia. }
  cbn [rbind]. exists a, b', r1, r2, upn, (skipn (S i) (map (number k) (map fst L))).
  assert (Etl : skipn (S i) (map (number k) (map fst L)) = l2).
  { rewrite map_map, Ep. rewrite <- Ei. change (S (length l1)) with (1 + length l1)%nat. rewrite Nat.add_comm. rewrite skipn_app, skipn_all2 by lia. replace (length l1 + 1 - length l1)%nat with 1%nat by lia. reflexivity. }
  splits; auto.
  2:{ exists c, m1, m2. split; [assumption|]. now rewrite Etl, <- E3, map_map. }
  intros x Hx. rewrite Etl, <- E3 in Hx. apply in_map_iff in Hx. destruct Hx as ([y z] & <- & Hy). cbn [fst].
  pose proof (filtered_sorted k t (leafPath k s)) as Srt. fold L in Srt. rewrite EL in Srt. apply sorted_split in Srt. destruct Srt as [_ Srt]. specialize (Srt _ Hy). cbn [fst] in Srt.
  apply own_in_tree; auto.
  - eapply above_in; eauto.
  - split; [assumption|]. eapply aos_trans; [apply aos_above; right; exact Srt|]. rewrite P2. eexists. reflexivity.
Qed.

Lemma decrypt_cases cs k t ctx li me up priv : shaped k t -> designated li < leaf_count k -> me < 2 ^ 31 ->
  (exists e, decryptPathSecrets cs t ctx li me up priv = Err e) \/
  exists a b s1 s2 upn tail, me < leaf_count k /\ leafPath k (designated li) = a ++ b :: s1 /\ leafPath k me = a ++ negb b :: s2 /\
    (forall x, In x tail -> own_node me x) /\
    decryptPathSecrets cs t ctx li me up priv = openPath cs t ctx priv upn (number k (a ++ [negb b])) (number k a) tail.
Proof.
  intros Sh Hs Hme. destruct (decrypt_cases_path cs k t ctx li me up priv Sh Hs Hme) as [E|(a & b & s1 & s2 & upn & tail & H1 & H2 & H3 & H4 & _ & H5)]; [auto|].
  right. exists a, b, s1, s2, upn, tail. auto.
Qed.

Lemma derivePath_keys cs t me : forall tail priv s priv' s', (forall x, In x tail -> own_node me x) -> own_keys me priv -> derivePath cs t priv s tail = Ok (priv', s') -> own_keys me priv'.
Proof.
  induction tail as [|x tail IH]; intros priv s priv' s' Ht Hp H; cbn in H.
  - apply Ok_inj in H. apply pair_equal_spec in H. now destruct H as [<- _].
  - apply rbind_ok in H. destruct H as (ps & _ & H). apply rbind_ok in H. destruct H as ([n|] & _ & H); [|discriminate].
    apply rbind_ok in H. destruct H as (np & _ & H). apply rbind_ok in H. destruct H as (p1 & E & H). eapply IH; [|idtac|exact H]; [intros; apply Ht; now right|].
    intros y key Hy. apply setN_ok in E. destruct E as [_ ->]. rewrite upd_nth in Hy. destruct (Nat.eqb_spec (N.to_nat x) (N.to_nat y)) as [Exy|]; [|eapply Hp; eauto].
    apply N2Nat.inj in Exy. subst y. apply Ht. now left.
Qed.
Lemma own_keys_set me priv x o priv' : setN priv x o = Ok priv' -> own_node me x -> own_keys me priv -> own_keys me priv'.
Proof.
  intros E Ho Hp y key Hy. apply setN_ok in E. destruct E as [_ ->]. rewrite upd_nth in Hy. destruct (Nat.eqb_spec (N.to_nat x) (N.to_nat y)) as [Exy|]; [|eapply Hp; eauto].
  apply N2Nat.inj in Exy. now subst y.
Qed.
Lemma openPath_keys cs t ctx me priv upn c a tail z priv' : own_node me a -> (forall x, In x tail -> own_node me x) -> own_keys me priv ->
  openPath cs t ctx priv upn c a tail = Ok (z, priv') -> own_keys me priv'.
Proof.
  intros Ha Ht Hp H. rewrite openPath_eq in H. apply rbind_ok in H. destruct H as (R & _ & H). apply rbind_ok in H. destruct H as ([] & _ & H).
  apply rbind_ok in H. destruct H as ([[ri np]|] & _ & H); [|discriminate]. apply rbind_ok in H. destruct H as (ct & _ & H). apply rbind_ok in H. destruct H as (ps & _ & H).
  apply rbind_ok in H. destruct H as ([n|] & _ & H); [|discriminate]. apply rbind_ok in H. destruct H as (np' & _ & H). apply rbind_ok in H. destruct H as (p1 & E1 & H).
  apply rbind_ok in H. destruct H as ([p2 s2] & E2 & H). apply rbind_ok in H. destruct H as (cs' & _ & H). apply Ok_inj in H. apply pair_equal_spec in H. destruct H as [_ <-].
  eapply derivePath_keys; [exact Ht| |exact E2]. eapply own_keys_set; eauto.
Qed.

(** Decrypting a path gives keys of own nodes only. *)
Theorem decrypt_keys cs k t ctx li me up priv z priv' : shaped k t -> designated li < leaf_count k -> me < 2 ^ 31 -> own_keys me priv ->
  decryptPathSecrets cs t ctx li me up priv = Ok (z, priv') -> own_keys me priv'.
Proof.
  intros Sh Hs Hme Hp H. destruct (decrypt_cases cs k t ctx li me up priv Sh Hs Hme) as [(e & E)|(a & b & s1 & s2 & upn & tail & Hmek & P1 & P2 & Ht & E)]; [congruence|].
  rewrite E in H. eapply openPath_keys; [|exact Ht|exact Hp|exact H]. apply own_in_tree; auto; [apply Sh| |].
  - unfold in_tree. apply (f_equal (@length bool)) in P1. rewrite leafPath_length, app_length in P1. lia.
  - split; [assumption|]. rewrite P2. eexists. reflexivity.
Qed.

Lemma findPriv_none priv : forall R i, (forall x, In x R -> nth_error priv (N.to_nat x) = Some None) -> findPriv priv i R = Ok None.
Proof.
  induction R as [|x R IH]; intros i H; cbn [findPriv]; [reflexivity|]. pose proof (H x (or_introl eq_refl)) as E.
  assert (G : getN priv x = Ok None).
  { now apply getN_ok. }
  rewrite G. cbn [rbind]. apply IH. intros y Hy. apply H. now right.
Qed.

(** Whoever is out of the tree gets an error. *)
Theorem cleared_error cs k t t' ctx li me up priv : shaped k t -> shaped k t' -> merged cs k t t' (designated li) up -> me < 2 ^ 31 ->
  full k priv -> own_keys me priv -> lists_below t' -> cleared me t ->
  exists e, decryptPathSecrets cs t' ctx li me up priv = Err e.
Proof.
  intros Sh Sh' M Hme Fp Hp Hl Hc. pose proof M as (F' & Hs & _ & _ & _ & O). pose proof (shaped_full _ _ Sh) as F. pose proof F as [Hk Ht].
  destruct (decrypt_cases cs k t' ctx li me up priv Sh' Hs Hme) as [E|(a & b & s1 & s2 & upn & tail & Hmek & P1 & P2 & Htl & E)]; [exact E|].
  rewrite E, openPath_eq.
  assert (Hin : in_tree k (a ++ [negb b])) by (unfold in_tree; apply (f_equal (@length bool)) in P1; rewrite leafPath_length, app_length in P1; rewrite app_length; cbn in *; lia).
  destruct (resolve_ok k t' Sh' (a ++ [negb b]) Hin) as (R & ER & HR & _). rewrite ER. cbn [rbind].
  destruct (guard _ _) as [[]|e|e|] eqn:Eg; cbn [rbind]; [|eauto|unfold guard in Eg; destruct (_ =? _); discriminate|unfold guard in Eg; destruct (_ =? _); discriminate].
  assert (Bl : forall q, in_tree k q -> ancestor_or_self (a ++ [negb b]) q -> own_node me (number k q) -> at_path k t' q = None).
  { intros q Hq Ha Ho. destruct (beside_not_above (leafPath k (designated li)) (a ++ [negb b]) q) as [B1 B2]; [exists a, b, s1; auto|assumption|].
    rewrite O by assumption. apply own_in_tree in Ho; auto. apply (proj1 (cleared_paths k me t F Hme) Hc); tauto. }
  rewrite findPriv_none; [cbn [rbind]; eauto|]. intros x Hx.
  assert (G : own_node me x -> False).
  { intros Ho. destruct (HR x Hx) as [(q & n & H1 & H2 & -> & H4)|(q & pn & u & H1 & H2 & H3 & H4 & ->)].
    - rewrite (Bl q H1 H2 Ho) in H4. discriminate.
    - rewrite nodeIndexOf_designated in Ho. apply own_leaf_node_inv in Ho; auto; [|apply designated_lt].
      assert (Ho' : own_node me (number k q)) by (rewrite <- Ho; eapply Hl; eauto; now apply at_path_nth).
      rewrite (Bl q H1 H2 Ho') in H3. discriminate. }
  assert (Hlt : x < node_count k).
  { destruct (HR x Hx) as [(q & n & H1 & H2 & -> & H4)|(q & pn & u & H1 & H2 & H3 & H4 & ->)]; [now apply number_lt|].
    destruct (proj1 (lists_paths k t' F') Hl q pn u H1 H3 H4) as [Hu _]. rewrite nodeIndexOf_designated, <- (leafPath_number k) by assumption. apply number_lt, leafPath_in. }
  destruct (nth_error priv (N.to_nat x)) as [[key|]|] eqn:En; [exfalso; apply G; eapply Hp; eauto|reflexivity|].
  exfalso. apply nth_error_None in En. destruct Fp as [_ Fp]. unfold lenN in Fp. lia.
Qed.
End WithCrypto.
