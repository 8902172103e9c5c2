(** Shape of, and members in, the trees produced by the operations. *)
From Verif Require Export HeapFacts.

(** ** Replacing a leaf *)
Lemma replaced_shaped k t t' li o : shaped k t -> replaced k t t' li o -> (forall n, o = Some n -> exists l, n = NLeaf l) -> shaped k t'.
Proof.
  intros [F S] (F' & Hli & H1 & H2 & H3) Ho. split; [assumption|]. intros p n Hp H.
  destruct (path_eq_dec p (leafPath k li)) as [->|Hne].
  - rewrite H1 in H. destruct (Ho _ H) as (l & ->). cbn. apply leafPath_length.
  - destruct (above_dec p (leafPath k li)) as [Ha|Ha].
    + rewrite H2 in H by assumption. discriminate.
    + rewrite H3 in H by assumption. now apply S.
Qed.

Lemma leaf_not_above k li j : ~ above (leafPath k j) (leafPath k li).
Proof. intros H. apply above_length in H. rewrite !leafPath_length in H. lia. Qed.

(** The members of a shaped tree, by path *)
Lemma leaf_at_path k t li : shaped k t -> li < leaf_count k ->
  leaf_at t li = match at_path k t (leafPath k li) with Some (NLeaf l) => Some l | _ => None end.
Proof. intros S H. rewrite (shaped_leaf k) by assumption. destruct (leaf_at t li); reflexivity. Qed.

Lemma replaced_leaf k t t' li o : shaped k t -> shaped k t' -> replaced k t t' li o ->
  (leaf_at t' li = match o with Some (NLeaf l) => Some l | _ => None end) /\ forall j, j <> li -> leaf_at t' j = leaf_at t j.
Proof.
  intros S S' (F' & Hli & H1 & H2 & H3). split; [now rewrite (leaf_at_path k), H1|].
  intros j Hj. destruct (N.lt_ge_cases j (leaf_count k)) as [Hlt|Hge].
  - rewrite !(leaf_at_path k) by assumption. rewrite H3; [reflexivity|apply leafPath_in| |apply leaf_not_above].
    intros E. apply leafPath_inj in E; auto.
  - rewrite !(leaf_at_out k) by (auto; now apply shaped_full). reflexivity.
Qed.

(** ** Truncating *)
Lemma number_left k d p : number (d + k) (repeat false d ++ p) = number k p.
Proof. induction d; cbn; auto. Qed.
Lemma at_path_firstn k k' {A} (t : list (option A)) p : (k' <= k)%nat -> full k t -> in_tree k' p ->
  at_path k' (firstn (N.to_nat (node_count k')) t) p = at_path k t (repeat false (k - k') ++ p).
Proof.
  intros Hle F Hp. unfold at_path. replace (number k (repeat false (k - k') ++ p)) with (number k' p).
  - apply number_lt in Hp. remember (N.to_nat (number k' p)) as i. assert (Hi : (i < N.to_nat (node_count k'))%nat) by lia.
    rewrite <- (firstn_skipn (N.to_nat (node_count k')) t) at 2. rewrite nth_error_app1; [reflexivity|].
    destruct (full_firstn k k' t F Hle) as [_ L]. unfold lenN in L. lia.
  - replace k with ((k - k') + k')%nat at 1 by lia. now rewrite number_left.
Qed.
Lemma truncated_shaped k t t' : shaped k t -> truncated k t t' -> well_shaped t'.
Proof.
  intros [F S] [[-> _]|(k' & Hle & F' & -> & _)]; [now left|]. right. exists k'. split; [assumption|].
  intros p n Hp H. rewrite (at_path_firstn k) in H by assumption. apply S in H.
  - destruct n; cbn [placed] in *; rewrite app_length, repeat_length in H; lia.
  - unfold in_tree in *. rewrite app_length, repeat_length. lia.
Qed.
Lemma leaf_at_firstn t n j : leaf_at (firstn n t) j = if (N.to_nat (2 * j) <? n)%nat then leaf_at t j else None.
Proof.
  unfold leaf_at. destruct (Nat.ltb_spec (N.to_nat (2 * j)) n) as [Hlt|Hge].
  - destruct (Nat.lt_ge_cases (N.to_nat (2 * j)) (length t)) as [H|H].
    + rewrite <- (firstn_skipn n t) at 2. rewrite nth_error_app1; [reflexivity|]. rewrite firstn_length. lia.
    + rewrite !(proj2 (nth_error_None _ _)); auto. rewrite firstn_length. lia.
  - rewrite (proj2 (nth_error_None _ _)); auto. rewrite firstn_length. lia.
Qed.
Lemma truncated_leaf k t t' : shaped k t -> truncated k t t' -> forall j, leaf_at t' j = leaf_at t j.
Proof.
  intros Sh Ht j. pose proof (shaped_full _ _ Sh) as F. destruct (N.lt_ge_cases j (leaf_count k)) as [Hlt|Hge].
  2:{ rewrite (leaf_at_out k t) by assumption. destruct Ht as [[-> _]|(k' & Hle & F' & _ & _)].
      - unfold leaf_at. now destruct (N.to_nat (2 * j)).
      - apply (leaf_at_out k'); auto. apply leaf_count_le in Hle. lia. }
  destruct Ht as [[-> H]|(k' & Hle & F' & -> & H & _)].
  - rewrite (leaf_at_path k t) by assumption. rewrite H by assumption. unfold leaf_at. now destruct (N.to_nat (2 * j)).
  - rewrite leaf_at_firstn. destruct (Nat.ltb_spec (N.to_nat (2 * j)) (N.to_nat (node_count k'))) as [|Hge']; [reflexivity|].
    rewrite (leaf_at_path k) by assumption. destruct (at_path k t (leafPath k j)) eqn:E; [|reflexivity].
    assert (j < leaf_count k') by (apply H; [assumption|congruence]). rewrite node_leaf_count in Hge'. lia.
Qed.

(** ** Adding *)
Lemma leaf_at_grown t j : leaf_at (grown t) j = leaf_at t j.
Proof.
  unfold leaf_at, grown. destruct (Nat.lt_ge_cases (N.to_nat (2 * j)) (length t)) as [H|H].
  - now rewrite nth_error_app1.
  - rewrite nth_error_app2 by assumption. rewrite (proj2 (nth_error_None t _)) by assumption.
    destruct (nth_error (repeat None (S (length t))) _) eqn:E; [|reflexivity]. apply nth_error_In, repeat_spec in E. now subst.
Qed.
Lemma added_leaf k t t' li l : shaped k t -> added k t t' li l ->
  leaf_at t' li = Some l /\ forall j, j <> li -> leaf_at t' j = leaf_at t j.
Proof.
  intros S (S' & Hli & H1 & H2 & H3). split; [now rewrite (leaf_at_path k), H1|].
  intros j Hj. destruct (N.lt_ge_cases j (leaf_count k)) as [Hlt|Hge].
  - rewrite !(leaf_at_path k) by assumption. rewrite H3; [reflexivity|apply leafPath_in| |apply leaf_not_above].
    intros E. apply leafPath_inj in E; auto.
  - rewrite !(leaf_at_out k) by (auto; now apply shaped_full). reflexivity.
Qed.

(** ** The operations, on well-shaped trees *)
Lemma update_shape t li l t' : well_shaped t -> update t li (NLeaf l) = Ok t' ->
  exists k, shaped k t /\ replaced k t t' (designated li) (Some (NLeaf l)) /\ shaped k t'.
Proof.
  intros [->|(k & S)] H.
  - unfold update in H. rinv. apply setN_ok in E. destruct E as [E _]. change (lenN (@nil (option node))) with 0 in E. lia.
  - exists k. pose proof (update_inv k t li (NLeaf l) t' (shaped_full _ _ S) H) as R. splits; auto.
    eapply replaced_shaped; eauto. intros n E. injection E as <-. eauto.
Qed.
Lemma remove_shape t li t' : well_shaped t -> Tree.remove t li = Ok t' ->
  exists k t1, shaped k t /\ replaced k t t1 (designated li) None /\ shaped k t1 /\ truncated k t1 t' /\ well_shaped t'.
Proof.
  intros [->|(k & S)] H.
  - unfold Tree.remove in H. rinv. apply setN_ok in E. destruct E as [E _]. change (lenN (@nil (option node))) with 0 in E. lia.
  - destruct (remove_inv k t li t' (shaped_full _ _ S) H) as (t1 & R & T). exists k, t1.
    assert (S1 : shaped k t1) by (eapply replaced_shaped; eauto; intros; discriminate). splits; auto. eapply truncated_shaped; eauto.
Qed.
Lemma add_shape t l t' : well_shaped t -> vadd t l = Ok t' ->
  exists k t0 li, leftmost_free t li /\ (t0 = t \/ t0 = grown t /\ forall j, 2 * j < lenN t -> leaf_at t j <> None) /\
    shaped k t0 /\ added k t0 t' li l.
Proof.
  intros W H. destruct (vadd_ok t l W (vadd_room t l t' W H)) as (k & t0 & li & t2 & E & HL & HT & HS & HA).
  rewrite E in H. apply Ok_inj in H. subst t2. exists k, t0, li. auto.
Qed.
Lemma add_members t l t' : well_shaped t -> vadd t l = Ok t' ->
  well_shaped t' /\ exists li, leftmost_free t li /\ leaf_at t' li = Some l /\ forall j, j <> li -> leaf_at t' j = leaf_at t j.
Proof.
  intros W H. destruct (add_shape t l t' W H) as (k & t0 & li & HL & HT & HS & HA). split; [right; exists k; apply HA|].
  exists li. split; [assumption|]. destruct (added_leaf k t0 t' li l HS HA) as [H1 H2]. split; [assumption|].
  intros j Hj. rewrite (H2 j Hj). destruct HT as [->|[-> _]]; [reflexivity|]. apply leaf_at_grown.
Qed.
Lemma update_members t li l t' : well_shaped t -> update t li (NLeaf l) = Ok t' ->
  well_shaped t' /\ leaf_at t' (designated li) = Some l /\ forall j, j <> designated li -> leaf_at t' j = leaf_at t j.
Proof.
  intros W H. destruct (update_shape t li l t' W H) as (k & S & R & S'). split; [right; eauto|].
  now destruct (replaced_leaf k t t' _ _ S S' R).
Qed.
Lemma remove_members t li t' : well_shaped t -> Tree.remove t li = Ok t' ->
  well_shaped t' /\ leaf_at t' (designated li) = None /\ forall j, j <> designated li -> leaf_at t' j = leaf_at t j.
Proof.
  intros W H. destruct (remove_shape t li t' W H) as (k & t1 & S & R & S1 & T & W'). split; [assumption|].
  destruct (replaced_leaf k t t1 _ _ S S1 R) as [H1 H2]. pose proof (truncated_leaf k t1 t' S1 T) as H3.
  split; [now rewrite H3|]. intros j Hj. rewrite H3. auto.
Qed.

(** ** A list of proposals *)
Lemma vapply_shape t props senders t' : well_shaped t -> vapply t props senders = Ok t' -> well_shaped t'.
Proof.
  intros W H. rewrite vapply_eq in H. rinv.
  assert (W1 : well_shaped v).
  { revert E. apply foldM_inv; [|assumption]. intros s [i p] s' _ Hs E. unfold updStep in E. cbn [fst snd] in E.
    destruct p; rinv; try (now subst). eapply update_members; eauto. }
  assert (W2 : well_shaped v0).
  { revert E0. apply foldM_inv; [|assumption]. intros s p s' _ Hs E0. unfold remStep in E0.
    destruct p; rinv; try (now subst). eapply remove_members; eauto. }
  revert H. apply foldM_inv; [|assumption]. intros s p s' _ Hs H. unfold addStep in H.
  destruct p; rinv; try (now subst). eapply add_members; eauto.
Qed.

Lemma fills_ext M1 M2 l M' : (forall j, M1 j = M2 j) -> fills M1 l M' -> fills M2 l M'.
Proof.
  intros E H. revert M2 E. induction H as [M M' H|M l r i M1 M' H1 H2 H3 H4 H IH]; intros M2 E.
  - constructor. intros j. rewrite H. auto.
  - apply fills_cons with (i := i) (M1 := M1); auto.
    + now rewrite <- E.
    + intros j Hj. rewrite <- E. auto.
    + intros j Hj. rewrite <- E. auto.
Qed.

Lemma adds_members props : forall t t', well_shaped t -> foldM addStep t props = Ok t' ->
  fills (leaf_at t) (flat_map (fun p => match p with PAdd k => [kp_leafNode k] | _ => [] end) props) (leaf_at t').
Proof.
  induction props as [|p props IH]; intros t t' W H; cbn [foldM flat_map] in *.
  - apply Ok_inj in H. subst. constructor. auto.
  - apply rbind_ok in H. destruct H as (t1 & H1 & H2). unfold addStep in H1.
    destruct p; try (apply Ok_inj in H1; subst; cbn [app]; now apply IH).
    destruct (add_members _ _ _ W H1) as (W1 & li & [L1 L2] & H3 & H4). cbn [app]. eapply fills_cons; eauto.
Qed.
Lemma removes_members props : forall t t', well_shaped t -> foldM remStep t props = Ok t' -> well_shaped t' /\
  forall j, leaf_at t' j = if memN j (flat_map (fun p => match p with PRemove r => [designated r] | _ => [] end) props) then None else leaf_at t j.
Proof.
  induction props as [|p props IH]; intros t t' W H; cbn [foldM flat_map] in *.
  - apply Ok_inj in H. subst. auto.
  - apply rbind_ok in H. destruct H as (t1 & H1 & H2). unfold remStep in H1.
    destruct p; try (apply Ok_inj in H1; subst; cbn [app]; now apply IH).
    destruct (remove_members _ _ _ W H1) as (W1 & H3 & H4). destruct (IH _ _ W1 H2) as [W2 H5]. split; [assumption|].
    intros j. rewrite H5. unfold memN. cbn [app existsb]. destruct (N.eqb_spec j (designated removed)) as [->|Hne]; cbn [orb].
    + now destruct (existsb _ _).
    + now rewrite H4.
Qed.
Definition updPair (t : ratchetTree) (ps : proposal * N) : res ratchetTree :=
  match fst ps with PUpdate l => update t (snd ps) (NLeaf l) | _ => Ok t end.
Lemma updates_pairs l : forall pre t,
  foldM (updStep (map snd (pre ++ l))) t (combine (seq (length pre) (length l)) (map fst l)) = foldM updPair t l.
Proof.
  induction l as [|[p s] l IH]; intros pre t; [reflexivity|]. cbn [length seq map combine foldM fst].
  assert (E : updStep (map snd (pre ++ (p, s) :: l)) t (length pre, p) = updPair t (p, s)).
  { unfold updStep, updPair. cbn [fst snd]. destruct p; try reflexivity. unfold index.
    rewrite nth_error_map, nth_error_app2, Nat.sub_diag by lia. reflexivity. }
  rewrite E. apply rbind_ext. intros t1 _. specialize (IH (pre ++ [(p, s)]) t1).
  rewrite <- app_assoc, app_length in IH. cbn [app length] in IH. now rewrite Nat.add_1_r in IH.
Qed.
Lemma updates_eq l t : foldM (updStep (map snd l)) t (numbered (map fst l)) = foldM updPair t l.
Proof. unfold numbered. rewrite map_length. apply (updates_pairs l []). Qed.

Lemma updates_members l : forall t t', well_shaped t -> foldM updPair t l = Ok t' ->
  well_shaped t' /\
  (NoDup (map fst (updatesOf l)) ->
   forall j, (forall m, In (j, m) (updatesOf l) -> leaf_at t' j = Some m) /\
             (~ In j (map fst (updatesOf l)) -> leaf_at t' j = leaf_at t j)).
Proof.
  induction l as [|[p s] l IH]; intros t t' W H; cbn [foldM] in H.
  - apply Ok_inj in H. subst. split; [assumption|]. intros _ j. split; [intros m []|auto].
  - apply rbind_ok in H. destruct H as (t1 & H1 & H2). unfold updPair in H1. cbn [fst snd] in H1.
    destruct p as [kp|n|rm|id|ri|ko|exts]; try (apply Ok_inj in H1; subst; now apply IH).
    destruct (update_members _ _ _ _ W H1) as (W1 & H3 & H4). destruct (IH _ _ W1 H2) as [W2 H5]. split; [assumption|].
    intros HN j. change (updatesOf ((PUpdate n, s) :: l)) with ((designated s, n) :: updatesOf l) in *. cbn [map fst] in HN. inversion HN as [|? ? Hin HN']; subst.
    destruct (H5 HN' j) as [H6 H7]. split.
    + intros m [E|Hm]; [|auto]. injection E as <- <-. rewrite H7 by assumption. assumption.
    + cbn [map fst In]. intros Hj. rewrite H7 by tauto. apply H4. intros ->. tauto.
Qed.

Lemma flat_map_map {A B D} (f : A -> B) (g : B -> list D) l : flat_map g (map f l) = flat_map (fun x => g (f x)) l.
Proof. induction l; cbn; congruence. Qed.

Lemma NoDup_app_inv {A} (a b : list A) : NoDup (a ++ b) -> NoDup a /\ NoDup b /\ forall x, In x a -> ~ In x b.
Proof.
  induction a as [|x a IH]; cbn; intros H.
  - splits; auto; try constructor.
  - inversion H as [|? ? Hx H']; subst. destruct (IH H') as (H1 & H2 & H3). rewrite in_app_iff in Hx. splits; auto.
    + constructor; tauto.
    + intros y [->|Hy]; [tauto|auto].
Qed.

Lemma vapply_members t l t' : well_shaped t ->
  NoDup (map fst (updatesOf l) ++ removalsOf l) ->
  vapply t (map fst l) (map snd l) = Ok t' ->
  exists M, changed (leaf_at t) l M /\ fills M (additionsOf l) (leaf_at t').
Proof.
  intros W HN H. rewrite vapply_eq, updates_eq in H. apply rbind_ok in H. destruct H as (t1 & H1 & H).
  apply rbind_ok in H. destruct H as (t2 & H2 & H3). destruct (updates_members _ _ _ W H1) as [W1 U].
  destruct (removes_members _ _ _ W1 H2) as [W2 R]. pose proof (adds_members _ _ _ W2 H3) as A. rewrite flat_map_map in A.
  assert (R' : forall j, leaf_at t2 j = if memN j (removalsOf l) then None else leaf_at t1 j) by (intros j; rewrite R, flat_map_map; reflexivity).
  exists (leaf_at t2). split; [|exact A].
  destruct (NoDup_app_inv _ _ HN) as (HNu & _ & Hdis).
  intros j. destruct (U HNu j) as [U1 U2]. splits.
  - intros Hj. rewrite R'. now rewrite (proj2 (memN_In _ _) Hj).
  - intros n Hn. rewrite R'. rewrite (proj2 (memN_false _ _)); [auto|]. apply Hdis. apply (in_map fst) in Hn. exact Hn.
  - intros Hj Hu. rewrite R', (proj2 (memN_false _ _)) by assumption. auto.
Qed.

(** When a list of proposals can be applied *)
Lemma member_in_array k t j : shaped k t -> leaf_at t j <> None -> j < leaf_count k.
Proof.
  intros S H. destruct (N.lt_ge_cases j (leaf_count k)) as [|Hge]; [assumption|]. exfalso. apply H. eapply leaf_at_out; eauto. now apply shaped_full.
Qed.
Lemma no_member_nil j : leaf_at [] j = None.
Proof. unfold leaf_at. now destruct (N.to_nat (2 * j)). Qed.
Lemma update_member t li l : well_shaped t -> leaf_at t (designated li) <> None -> exists t', update t li (NLeaf l) = Ok t'.
Proof.
  intros [->|(k & S)] H; [now rewrite no_member_nil in H|].
  destruct (update_ok k t li (NLeaf l)) as (t' & E & _); eauto. { now apply shaped_full. } eapply member_in_array; eauto.
Qed.
Lemma remove_member t li : well_shaped t -> leaf_at t (designated li) <> None -> exists t', Tree.remove t li = Ok t'.
Proof.
  intros [->|(k & S)] H; [now rewrite no_member_nil in H|].
  destruct (remove_ok k t li) as (t1 & t' & E & _); eauto. { now apply shaped_full. } eapply member_in_array; eauto.
Qed.
Lemma upto_NoDup n : NoDup (upto n).
Proof.
  unfold upto. generalize (seq_NoDup (N.to_nat n) 0). generalize (seq 0 (N.to_nat n)). induction l as [|a l IH]; cbn; intros H; [constructor|].
  inversion H; subst. constructor; auto. rewrite in_map_iff. intros (b & E & Hb). apply Nat2N.inj in E. now subst.
Qed.
Lemma lenN_upto n : lenN (upto n) = n.
Proof. unfold lenN, upto. rewrite map_length, seq_length. lia. Qed.
Lemma upto_incl n ms : incl (upto n) ms -> n <= lenN ms.
Proof. intros HI. apply NoDup_incl_length in HI; [|apply upto_NoDup]. pose proof (lenN_upto n). unfold lenN in *. lia. Qed.
Lemma add_few t l n : well_shaped t -> at_most (leaf_at t) n -> n < 2 ^ 31 -> exists t', vadd t l = Ok t'.
Proof.
  intros W (ms & Hn & Hms) Hlt. destruct (vadd_ok t l W) as (k & t0 & li & t' & E & _); [|eauto].
  destruct W as [->|(k & S)]; [left; reflexivity|]. pose proof (shaped_full _ _ S) as F.
  destruct (N.lt_ge_cases (lenN t) (2 ^ 32 - 1)) as [|Hge]; [now left|]. right.
  assert (Hk : 2 ^ 31 <= leaf_count k).
  { destruct F as [_ F]. rewrite F, node_leaf_count in Hge. change (2 ^ 32) with 4294967296 in Hge. change (2 ^ 31) with 2147483648. lia. }
  destruct (addSlot_ok k t F) as [(m & H1 & H2 & _)|(H1 & _)].
  - exists m. split; [now apply (leaf_in_array k)|]. rewrite (shaped_leaf k) in H2 by assumption. now destruct (leaf_at t m).
  - exfalso. assert (HI : incl (upto (2 ^ 31)) ms).
    { intros j Hj. pose proof (proj1 (upto_In (2 ^ 31) j) Hj) as Hj2. clear Hj. apply Hms. specialize (H1 j ltac:(lia)). rewrite (shaped_leaf k) in H1 by (auto; lia).
      now destruct (leaf_at t j). }
    apply upto_incl in HI. lia.
Qed.

Lemma adds_succeed props : forall t n, well_shaped t -> at_most (leaf_at t) n ->
  n + lenN (flat_map (fun p => match p with PAdd k => [kp_leafNode k] | _ => [] end) props) <= 2 ^ 31 ->
  exists t', foldM addStep t props = Ok t'.
Proof.
  induction props as [|p props IH]; intros t n W Hm Hn; cbn [foldM flat_map] in *; [eauto|].
  unfold addStep at 1. destruct p; try (cbn [rbind app] in *; eapply IH; eauto).
  cbn [app] in Hn. rewrite lenN_cons' in Hn. destruct (add_few t (kp_leafNode kp) n W Hm) as (t1 & E); [lia|]. rewrite E. cbn [rbind].
  destruct (add_members _ _ _ W E) as (W1 & li & _ & H3 & H4). apply (IH t1 (n + 1)); auto; [|lia].
  destruct Hm as (ms & Hl & Hms). exists (li :: ms). split; [rewrite lenN_cons'; lia|]. intros j Hj.
  destruct (N.eq_dec j li) as [->|Hne]; [cbn; auto|]. rewrite H4 in Hj by assumption. cbn. auto.
Qed.
Lemma removes_succeed props : forall t, well_shaped t ->
  let rs := flat_map (fun p => match p with PRemove r => [designated r] | _ => [] end) props in
  NoDup rs -> (forall r, In r rs -> leaf_at t r <> None) -> exists t', foldM remStep t props = Ok t'.
Proof.
  induction props as [|p props IH]; intros t W rs HN Hr; cbn [foldM] in *; [eauto|].
  unfold remStep at 1. subst rs. cbn [flat_map] in *. destruct p; try (cbn [rbind app] in *; eapply IH; eauto).
  cbn [app] in *. inversion HN as [|? ? Hin HN']; subst.
  destruct (remove_member t removed W) as (t1 & E); [apply Hr; cbn; auto|]. rewrite E. cbn [rbind].
  destruct (remove_members _ _ _ W E) as (W1 & H3 & H4). apply IH; auto.
  intros r Hrr. rewrite H4; [apply Hr; cbn; auto|]. intros ->. contradiction.
Qed.
Lemma updates_succeed l : forall t, well_shaped t -> (forall s n, In (s, n) (updatesOf l) -> leaf_at t s <> None) ->
  exists t', foldM updPair t l = Ok t' /\ (forall j, leaf_at t' j <> None <-> leaf_at t j <> None).
Proof.
  induction l as [|[p s] l IH]; intros t W Hu; cbn [foldM]; [exists t; tauto|].
  unfold updPair at 1. cbn [fst snd]. destruct p; try (cbn [rbind]; apply IH; auto; fail).
  destruct (update_member t s l0 W) as (t1 & E). { apply (Hu _ l0). cbn. auto. } rewrite E. cbn [rbind].
  destruct (update_members _ _ _ _ W E) as (W1 & H3 & H4).
  assert (Hiff : forall j, leaf_at t1 j <> None <-> leaf_at t j <> None).
  { intros j. destruct (N.eq_dec j (designated s)) as [->|Hne]; [|now rewrite H4].
    rewrite H3. split; [intros _|congruence]. apply (Hu _ l0). cbn. auto. }
  destruct (IH t1 W1) as (t' & E' & H'). { intros s0 n0 Hin. apply Hiff. apply (Hu _ n0). cbn. auto. }
  exists t'. split; [assumption|]. intros j. rewrite H'. apply Hiff.
Qed.
Lemma vapply_succeeds t l n : well_shaped t -> NoDup (removalsOf l) ->
  (forall s m, In (s, m) (updatesOf l) -> leaf_at t s <> None) ->
  (forall r, In r (removalsOf l) -> leaf_at t r <> None) ->
  at_most (leaf_at t) n -> n + lenN (additionsOf l) <= 2 ^ 31 ->
  exists t', vapply t (map fst l) (map snd l) = Ok t'.
Proof.
  intros W HN Hu Hr Hm Hn. rewrite vapply_eq, updates_eq. destruct (updates_succeed l t W Hu) as (t1 & E1 & I1). rewrite E1. cbn [rbind].
  destruct (updates_members _ _ _ W E1) as [W1 _].
  destruct (removes_succeed (map fst l) t1 W1) as (t2 & E2). { now rewrite flat_map_map. } { intros r Hrr. rewrite flat_map_map in Hrr. apply I1. now apply Hr. }
  rewrite E2. cbn [rbind]. destruct (removes_members _ _ _ W1 E2) as [W2 R].
  apply (adds_succeed (map fst l) t2 n); auto; [|now rewrite flat_map_map].
  destruct Hm as (ms & Hl & Hms). exists ms. split; [assumption|]. intros j Hj. apply Hms, I1. rewrite R in Hj. now destruct (memN _ _).
Qed.
