(** Facts about trees as arrays, and about adding, updating and removing. *)
From Verif Require Export SpecTree ModelFacts TreePathFacts SpecTreeMathFacts.

Lemma node_count_32 k : fits k -> node_count k < 2 ^ 32.
Proof.
  intros Hk. rewrite node_count_eq.
  assert (2 ^ N.of_nat k <= 2 ^ 31) by (apply pow2_le; now apply fitsN). change (2 ^ 31) with 2147483648 in *. change (2 ^ 32) with 4294967296. lia.
Qed.
Lemma numLeaves_tree {A} (t : list A) k : fits k -> lenN t = node_count k -> numLeaves t = leaf_count k.
Proof.
  intros Hk Ht. unfold numLeaves. rewrite Ht, w32_small by now apply node_count_32. now apply sizes.
Qed.
Lemma leaf_count_31 k : fits k -> leaf_count k <= 2 ^ 31.
Proof. intros Hk. unfold leaf_count. apply pow2_le. now apply fitsN. Qed.
Lemma leaf_count_pos k : 0 < leaf_count k.
Proof. apply pow2_pos. Qed.
Lemma node_leaf_count k : node_count k = 2 * leaf_count k - 1.
Proof. apply node_count_eq. Qed.

(** ** Paths *)
Lemma leafPath_length k li : length (leafPath k li) = k.
Proof. induction k; cbn; auto. Qed.
Lemma leafPath_in k li : in_tree k (leafPath k li).
Proof. unfold in_tree. rewrite leafPath_length. lia. Qed.
Lemma leafPath_val k li : val (leafPath k li) = li mod 2 ^ N.of_nat k.
Proof.
  induction k as [|k IH].
  - cbn. change (2 ^ 0) with 1. now rewrite N.mod_1_r.
  - cbn [leafPath val]. rewrite IH. rewrite Nat2N.inj_succ.
    assert (HL : lenN (leafPath k li) = N.of_nat k) by (unfold lenN; now rewrite leafPath_length). rewrite HL.
    rewrite N.pow_succ_r', (N.mul_comm 2), N.mod_mul_r by (try apply N.pow_nonzero; lia).
    rewrite N.testbit_spec'. rewrite N.add_comm, N.mul_comm. reflexivity.
Qed.
Lemma leafPath_number k li : li < leaf_count k -> number k (leafPath k li) = 2 * li.
Proof.
  intros H. rewrite number_nd by apply leafPath_in.
  assert (HL : lenN (leafPath k li) = N.of_nat k) by (unfold lenN; now rewrite leafPath_length).
  rewrite HL, N.sub_diag, nd_0, leafPath_val, N.mod_small by exact H. reflexivity.
Qed.
Lemma leafPath_inj k a b : a < leaf_count k -> b < leaf_count k -> leafPath k a = leafPath k b -> a = b.
Proof. intros Ha Hb E. apply (f_equal (number k)) in E. rewrite !leafPath_number in E by assumption. lia. Qed.
Lemma leafPath_onto k p : length p = k -> p = leafPath k (val p) /\ val p < leaf_count k.
Proof.
  intros H. assert (Hv : val p < leaf_count k).
  { pose proof (val_lt p) as Hv. unfold lenN in Hv. rewrite H in Hv. exact Hv. }
  split; [|exact Hv]. apply val_inj; [now rewrite leafPath_length|].
  rewrite leafPath_val, N.mod_small by exact Hv. reflexivity.
Qed.
(** In a tree twice as high, the old leaves are on the left. *)
Lemma leafPath_S k li : li < leaf_count k -> leafPath (S k) li = false :: leafPath k li.
Proof.
  intros H. cbn [leafPath]. f_equal. rewrite <- (N.mod_small li (2 ^ N.of_nat k)) by exact H. apply N.mod_pow2_bits_high. lia.
Qed.

Lemma above_spec a p : above a p <-> ancestor_or_self a p /\ a <> p.
Proof.
  split.
  - intros (b & s & ->). split; [now exists (b :: s)|]. intros E. apply (f_equal (@length bool)) in E. rewrite app_length in E. cbn in E. lia.
  - intros [(s & ->) Hn]. destruct s as [|b s]; [rewrite app_nil_r in Hn; congruence|]. now exists b, s.
Qed.
Lemma above_In a p : above a p <-> In a (proper_ancestors p).
Proof. rewrite above_spec, proper_ancestors_spec. reflexivity. Qed.
Lemma above_dec a p : above a p \/ ~ above a p.
Proof.
  rewrite above_In. destruct (in_dec (list_eq_dec Bool.bool_dec) a (proper_ancestors p)); auto.
Qed.
Lemma above_length a p : above a p -> (length a < length p)%nat.
Proof. intros (b & s & ->). rewrite app_length. cbn. lia. Qed.
Lemma above_in k a p : above a p -> in_tree k p -> in_tree k a.
Proof. intros H. apply above_length in H. unfold in_tree. lia. Qed.
Lemma path_eq_dec (p q : path) : {p = q} + {p <> q}.
Proof. apply (list_eq_dec Bool.bool_dec). Qed.
Lemma above_not_self p : ~ above p p.
Proof. intros H. apply above_length in H. lia. Qed.
Lemma above_trans a b c : above a b -> above b c -> above a c.
Proof. intros (x & s & ->) (y & r & ->). exists x, (s ++ y :: r). now rewrite <- app_assoc. Qed.
Lemma above_linear a b p : above a p -> above b p -> a = b \/ above a b \/ above b a.
Proof.
  intros (x & s & E1) (y & r & E2). destruct (prefix_dec a b) as [(u & ->)|[(u & ->)|(w & c & u & v & -> & ->)]].
  - destruct u as [|z u]; [rewrite app_nil_r; auto|]. right. right. now exists z, u.
  - destruct u as [|z u]; [rewrite app_nil_r; auto|]. right. left. now exists z, u.
  - exfalso. rewrite E1, <- !app_assoc in E2. apply app_inv_head in E2. destruct c; discriminate.
Qed.

(** Numbers of proper ancestors *)
Lemma dp_In k p q : in_tree k p -> in_tree k q -> In (number k q) (map (number k) (proper_ancestors p)) <-> above q p.
Proof.
  intros Hp Hq. rewrite in_map_iff, above_In. split.
  - intros (a & E & Ha). apply number_inj in E; auto; [now subst|]. apply above_In in Ha. eapply above_in; eauto.
  - intros H. exists q. auto.
Qed.
Lemma dp_lt k p x : in_tree k p -> In x (map (number k) (proper_ancestors p)) -> x < node_count k.
Proof.
  intros Hp H. apply in_map_iff in H. destruct H as (a & <- & Ha). apply number_lt. apply above_In in Ha. eapply above_in; eauto.
Qed.

(** ** Nodes of trees *)
Section AnyTree.
Context {A : Type}.
Implicit Types t : list (option A).

Lemma at_path_getN k t p : full k t -> in_tree k p -> getN t (number k p) = Ok (at_path k t p).
Proof.
  intros [Hk Ht] Hp. apply getN_ok. unfold at_path. apply number_lt in Hp. rewrite <- Ht in Hp. unfold lenN in Hp.
  destruct (nth_error t (N.to_nat (number k p))) eqn:E; [reflexivity|]. apply nth_error_None in E. lia.
Qed.
Lemma full_ext k t1 t2 : full k t1 -> full k t2 -> (forall p, in_tree k p -> at_path k t1 p = at_path k t2 p) -> t1 = t2.
Proof.
  intros F1 F2 H. apply nth_error_ext. intros i. destruct F1 as [Hk F1], F2 as [_ F2].
  destruct (Nat.lt_ge_cases i (length t1)) as [Hi|Hi].
  - destruct (number_onto k (N.of_nat i)) as (p & Hp & E); [unfold lenN in F1; lia|].
    specialize (H p Hp). pose proof (at_path_getN k t1 p (conj Hk F1) Hp) as G1. pose proof (at_path_getN k t2 p (conj Hk F2) Hp) as G2.
    rewrite <- H in G2. apply getN_ok in G1, G2. rewrite E, Nat2N.id in *. congruence.
  - rewrite (proj2 (nth_error_None t1 i)) by lia. symmetry. apply nth_error_None. unfold lenN in *. lia.
Qed.

Lemma at_path_of_getN k t p o : full k t -> in_tree k p -> getN t (number k p) = Ok o -> at_path k t p = o.
Proof. intros F Hp H. rewrite (at_path_getN k t p F Hp) in H. now apply Ok_inj in H. Qed.

(** Blanking a list of positions *)
Lemma blank_all xs : forall t t', foldM (fun t x => setN t x None) t xs = Ok t' ->
  lenN t' = lenN t /\ forall y, getN t' y = if memN y xs then Ok None else getN t y.
Proof.
  induction xs as [|x xs IH]; intros t t' H; cbn [foldM] in H.
  - apply Ok_inj in H. subst. cbn. auto.
  - apply rbind_ok in H. destruct H as (t1 & H1 & H). apply IH in H. destruct H as [HL HG].
    pose proof (setN_len _ _ _ _ H1) as L1. split; [congruence|]. intros y. rewrite HG, (getN_setN _ _ _ _ y H1).
    unfold memN. cbn [existsb]. destruct (y =? x); cbn [orb]; destruct (existsb (N.eqb y) xs); reflexivity.
Qed.
Lemma blank_all_ok xs : forall t, (forall x, In x xs -> x < lenN t) -> exists t', foldM (fun t x => setN t x None) t xs = Ok t'.
Proof.
  induction xs as [|x xs IH]; intros t H; cbn [foldM]; [eauto|].
  rewrite setN_in by (apply H; cbn; auto). cbn [rbind]. apply IH. intros y Hy. rewrite lenN_upd. apply H. cbn; auto.
Qed.

Lemma memN_dp k p q : in_tree k p -> in_tree k q -> memN (number k q) (map (number k) (proper_ancestors p)) = true <-> above q p.
Proof. intros. rewrite memN_In. now apply dp_In. Qed.

Lemma leaf_directPath k t li : full k t -> li < leaf_count k ->
  directPath (numLeaves t) (2 * li) = Ok (map (number k) (proper_ancestors (leafPath k li))).
Proof.
  intros [Hk Ht] Hli. rewrite (numLeaves_tree t k Hk Ht), <- (leafPath_number k li Hli). apply path_directPath; auto. apply leafPath_in.
Qed.

Lemma nodeIndexOf_leaf k li : fits k -> li < leaf_count k -> nodeIndexOf li = 2 * li.
Proof. intros Hk H. unfold nodeIndexOf. apply w32_small. pose proof (leaf_count_31 k Hk). change (2 ^ 32) with (2 * 2 ^ 31). lia. Qed.
Lemma nodeIndexOf_designated li : nodeIndexOf li = 2 * designated li.
Proof.
  unfold nodeIndexOf, w32, designated. change (2 ^ 32) with (2 * 2 ^ 31). rewrite N.mul_mod_distr_l by (cbn; lia). reflexivity.
Qed.
Lemma designated_leaf k li : fits k -> li < leaf_count k -> designated li = li.
Proof. intros Hk H. unfold designated. apply N.mod_small. pose proof (leaf_count_31 k Hk). lia. Qed.
Lemma leaf_in_array k t li : full k t -> 2 * li < lenN t <-> li < leaf_count k.
Proof. intros [Hk Ht]. rewrite Ht, node_leaf_count. pose proof (leaf_count_pos k). lia. Qed.

(** Setting the leaf and blanking its direct path *)
Lemma replace_leaf k t li o : full k t -> li < leaf_count k ->
  exists t', (let! t1 := setN t (2 * li) o in
              let! dp := directPath (numLeaves t) (2 * li) in
              foldM (fun t x => setN t x None) t1 dp) = Ok t' /\ replaced k t t' li o.
Proof.
  intros F Hli. assert (Hin : 2 * li < lenN t) by now apply (leaf_in_array k).
  destruct (setN t (2 * li) o) as [t1| | |] eqn:E1; try (rewrite setN_in in E1 by auto; discriminate). cbn [rbind].
  rewrite (leaf_directPath k) by assumption. cbn [rbind]. pose proof (setN_len _ _ _ _ E1) as L1.
  destruct (blank_all_ok (map (number k) (proper_ancestors (leafPath k li))) t1) as (t2 & E2).
  { intros x Hx. rewrite L1. destruct F as [_ ->]. eapply dp_lt; [apply leafPath_in|exact Hx]. }
  exists t2. split; [exact E2|]. apply blank_all in E2. destruct E2 as [L2 G2].
  assert (F2 : full k t2) by (destruct F as [Hk Ht]; split; [assumption|congruence]).
  assert (G : forall p, in_tree k p -> Ok (at_path k t2 p) =
            if memN (number k p) (map (number k) (proper_ancestors (leafPath k li))) then Ok None
            else if number k p =? 2 * li then Ok o else Ok (at_path k t p)).
  { intros p Hp. rewrite <- (at_path_getN k t2 p F2 Hp), <- (at_path_getN k t p F Hp), G2, (getN_setN _ _ _ _ _ E1). reflexivity. }
  split; [assumption|]. split; [assumption|]. pose proof (leafPath_in k li) as Hlp. splits.
  - apply Ok_inj. rewrite (G _ Hlp).
    destruct (memN _ _) eqn:E; [apply memN_dp in E; auto; exfalso; eapply above_not_self; eauto|].
    now rewrite leafPath_number, N.eqb_refl by assumption.
  - intros p Hp Ha. apply Ok_inj. rewrite (G _ Hp). now rewrite (proj2 (memN_dp k _ _ Hlp Hp) Ha).
  - intros p Hp Hne Ha. apply Ok_inj. rewrite (G _ Hp).
    destruct (memN _ _) eqn:E; [apply memN_dp in E; auto; contradiction|].
    destruct (N.eqb_spec (number k p) (2 * li)) as [E0|_]; [|reflexivity].
    rewrite <- (leafPath_number k li Hli) in E0. apply number_inj in E0; auto. contradiction.
Qed.

Lemma update_ok k t li a : full k t -> designated li < leaf_count k ->
  exists t', update t li a = Ok t' /\ replaced k t t' (designated li) (Some a).
Proof. intros F H. unfold update. rewrite nodeIndexOf_designated. now apply replace_leaf. Qed.
Lemma update_inv k t li a t' : full k t -> update t li a = Ok t' -> replaced k t t' (designated li) (Some a).
Proof.
  intros F H. assert (Hd : designated li < leaf_count k).
  { pose proof H as H0. unfold update in H0. apply rbind_ok in H0. destruct H0 as (t1 & H1 & _). apply setN_ok in H1. destruct H1 as [H1 _].
    rewrite nodeIndexOf_designated in H1. now apply (leaf_in_array k t). }
  destruct (update_ok k t li a F Hd) as (t2 & E & R). rewrite E in H. apply Ok_inj in H. now subst.
Qed.

(** The array at a leaf *)
Lemma at_leaf k t li : full k t -> li < leaf_count k -> getN t (2 * li) = Ok (at_path k t (leafPath k li)).
Proof. intros F H. rewrite <- (leafPath_number k li H). apply at_path_getN; auto. apply leafPath_in. Qed.

(** *** Removing *)
Lemma leaf_count_lt j k : (j < k)%nat -> 2 * leaf_count j <= leaf_count k.
Proof.
  intros H. unfold leaf_count. rewrite <- N.pow_succ_r'. apply pow2_le. lia.
Qed.
Lemma leaf_count_le j k : (j <= k)%nat -> leaf_count j <= leaf_count k.
Proof. intros H. apply pow2_le. lia. Qed.
Lemma leaf_count_lt_inv j k : leaf_count j < leaf_count k -> (j < k)%nat.
Proof. intros H. destruct (Nat.lt_ge_cases j k) as [|Hge]; auto. apply leaf_count_le in Hge. lia. Qed.
Lemma fits_le j k : (j <= k)%nat -> fits k -> fits j.
Proof. unfold fits. lia. Qed.

Lemma lastMember_spec k t : full k t -> forall fuel li kk,
  (N.to_nat li <= fuel)%nat -> li < leaf_count kk -> (kk <= k)%nat ->
  (forall j, (j < kk)%nat -> leaf_count j <= li) ->
  exists r, lastMember fuel t li (2 * leaf_count kk) = Ok r /\
    match r with
    | None => forall m, m <= li -> at_path k t (leafPath k m) = None
    | Some lp => exists k' m, lp = 2 * leaf_count k' /\ (k' <= k)%nat /\ m <= li /\ m < leaf_count k' /\
                   at_path k t (leafPath k m) <> None /\
                   (forall j, (j < k')%nat -> leaf_count j <= m) /\
                   (forall n, m < n -> n <= li -> at_path k t (leafPath k n) = None)
    end.
Proof.
  intros F. pose proof (proj1 F) as Hfits. induction fuel as [|fuel IH]; intros li kk Hf Hli Hkk Hmin.
  all: assert (Hlk : li < leaf_count k) by (pose proof (leaf_count_le _ _ Hkk); lia).
  all: cbn [lastMember]; rewrite (nodeIndexOf_leaf k) by assumption; rewrite (at_leaf k) by assumption; cbn [rbind].
  all: destruct (at_path k t (leafPath k li)) as [a|] eqn:Ea;
    [exists (Some (2 * leaf_count kk)); split; [reflexivity|]; exists kk, li; splits; auto; try lia; try congruence; intros; lia|].
  - assert (li = 0) by lia. subst li. cbn. exists None. split; [reflexivity|]. intros m Hm. now replace m with 0 by lia.
  - destruct (N.eqb_spec li 0) as [->|Hz].
    { exists None. split; [reflexivity|]. intros m Hm. now replace m with 0 by lia. }
    assert (G : exists kk', (if isPowerOf2 (2 * li) then 2 * li else 2 * leaf_count kk) = 2 * leaf_count kk' /\ (kk' <= k)%nat /\
                li - 1 < leaf_count kk' /\ forall j, (j < kk')%nat -> leaf_count j <= li - 1).
    { destruct (isPowerOf2 (2 * li)) eqn:Ep.
      - apply isPowerOf2_spec in Ep. destruct Ep as (d & Ep).
        destruct (N.eq_dec d 0) as [->|Hd]; [change (2 ^ 0) with 1 in Ep; lia|].
        assert (Ed : li = 2 ^ (d - 1)) by (replace d with (N.succ (d - 1)) in Ep by lia; rewrite N.pow_succ_r' in Ep; lia).
        assert (Hlc : leaf_count (N.to_nat (d - 1)) = li) by (unfold leaf_count; rewrite N2Nat.id; auto).
        exists (N.to_nat (d - 1)). rewrite Hlc. splits; try lia.
        + assert (leaf_count (N.to_nat (d - 1)) < leaf_count k) by lia. apply leaf_count_lt_inv in H. lia.
        + intros j Hj. apply leaf_count_lt in Hj. pose proof (leaf_count_pos j). lia.
      - exists kk. splits; auto; try lia. intros j Hj. specialize (Hmin j Hj).
        destruct (N.eq_dec li (leaf_count j)) as [E|]; [|lia]. exfalso.
        assert (isPowerOf2 (2 * li) = true); [|congruence]. apply isPowerOf2_spec. exists (N.of_nat (S j)). subst li.
        unfold leaf_count. rewrite Nat2N.inj_succ, N.pow_succ_r'. reflexivity. }
    destruct G as (kk' & -> & Hk' & Hl' & Hm'). destruct (IH (li - 1) kk') as (r & -> & Hr); auto; try lia.
    exists r. split; [reflexivity|]. destruct r as [lp|].
    + destruct Hr as (k' & m & ? & ? & ? & ? & ? & ? & Hn). exists k', m. splits; auto; try lia.
      intros n H5 H6. destruct (N.eq_dec n li) as [->|]; [assumption|]. apply Hn; lia.
    + intros m Hm. destruct (N.eq_dec m li) as [->|]; [assumption|]. apply Hr; lia.
Qed.

Lemma full_firstn k k' t : full k t -> (k' <= k)%nat -> full k' (firstn (N.to_nat (node_count k')) t).
Proof.
  intros [Hk Ht] Hle. split; [eapply fits_le; eauto|]. unfold lenN in *. rewrite firstn_length.
  assert (node_count k' <= node_count k); [|lia]. rewrite !node_leaf_count. apply leaf_count_le in Hle. lia.
Qed.

Lemma remove_tail k t : full k t -> exists t',
  (let! r := lastMember (length t) t (leaf_count k - 1) (lenN t + 1) in
   match r with
   | None => Ok []
   | Some lp => Ok (if lp <? lenN t + 1 then firstn (N.to_nat (lp - 1)) t else t)
   end) = Ok t' /\ truncated k t t'.
Proof.
  intros F. pose proof F as [Hk Ht]. rewrite Ht. pose proof (leaf_count_pos k).
  replace (node_count k + 1) with (2 * leaf_count k) by (rewrite node_leaf_count; lia).
  destruct (lastMember_spec k t F (length t) (leaf_count k - 1) k) as (r & -> & Hr); auto; try lia.
  { unfold lenN in Ht. rewrite node_leaf_count in Ht. lia. }
  { intros j Hj. apply leaf_count_lt in Hj. pose proof (leaf_count_pos j). lia. }
  cbn [rbind]. destruct r as [lp|].
  - destruct Hr as (k' & m & -> & Hk' & Hm1 & Hm2 & Hm3 & Hmin & Hlast). eexists. split; [reflexivity|]. right. exists k'.
    assert (E : (if 2 * leaf_count k' <? 2 * leaf_count k then firstn (N.to_nat (2 * leaf_count k' - 1)) t else t)
                = firstn (N.to_nat (node_count k')) t).
    { rewrite <- node_leaf_count. destruct (N.ltb_spec (2 * leaf_count k') (2 * leaf_count k)) as [|Hge]; [reflexivity|].
      symmetry. apply firstn_all2. unfold lenN in Ht. apply leaf_count_le in Hk'. rewrite node_leaf_count in *. lia. }
    rewrite E. splits; auto.
    + now apply (full_firstn k).
    + intros li Hli Hne. destruct (N.lt_ge_cases m li) as [Hlt|]; [|lia]. rewrite Hlast in Hne by lia. congruence.
    + exists m. auto.
  - eexists. split; [reflexivity|]. left. split; [reflexivity|]. intros li Hli. apply Hr. lia.
Qed.

Lemma remove_ok k t li : full k t -> designated li < leaf_count k ->
  exists t1 t', Tree.remove t li = Ok t' /\ replaced k t t1 (designated li) None /\ truncated k t1 t'.
Proof.
  intros F H. destruct (replace_leaf k t (designated li) None F H) as (t1 & E & R). pose proof (proj1 R) as F1.
  destruct (remove_tail k t1 F1) as (t' & E' & T). exists t1, t'. split; [|auto].
  unfold Tree.remove. rewrite nodeIndexOf_designated.
  destruct (setN t (2 * designated li) None) as [t0| | |] eqn:E0; cbn [rbind] in *; try discriminate.
  destruct (directPath (numLeaves t) (2 * designated li)) as [dp| | |] eqn:E1; cbn [rbind] in *; try discriminate.
  rewrite E. cbn [rbind]. rewrite (numLeaves_tree t k) by apply F.
  replace (length t) with (length t1); [exact E'|]. destruct F as [_ F], F1 as [_ F1]. unfold lenN in *. lia.
Qed.
Lemma remove_inv k t li t' : full k t -> Tree.remove t li = Ok t' ->
  exists t1, replaced k t t1 (designated li) None /\ truncated k t1 t'.
Proof.
  intros F H. assert (Hd : designated li < leaf_count k).
  { pose proof H as H0. unfold Tree.remove in H0. apply rbind_ok in H0. destruct H0 as (t1 & H1 & _). apply setN_ok in H1. destruct H1 as [H1 _].
    rewrite nodeIndexOf_designated in H1. now apply (leaf_in_array k t). }
  destruct (remove_ok k t li F Hd) as (t1 & t2 & E & R). rewrite E in H. apply Ok_inj in H. subst. eauto.
Qed.

(** *** Looking for a free leaf *)
Lemma freeSlot_spec k t : full k t -> forall fuel li,
  (N.to_nat (leaf_count k - li) <= fuel)%nat -> li <= leaf_count k ->
  (exists m, li <= m < leaf_count k /\ at_path k t (leafPath k m) = None /\ (forall j, li <= j < m -> at_path k t (leafPath k j) <> None) /\
             freeSlot fuel t li = Ok (true, m)) \/
  ((forall j, li <= j < leaf_count k -> at_path k t (leafPath k j) <> None) /\ (fits (S k) -> freeSlot fuel t li = Ok (false, leaf_count k))).
Proof.
  intros F. pose proof F as [Hk Ht]. induction fuel as [|fuel IH]; intros li Hf Hli.
  all: destruct (N.eq_dec li (leaf_count k)) as [->|Hne];
    [right; split; [intros; lia|]; intros Hk1; cbn [freeSlot];
     assert (E : nodeIndexOf (leaf_count k) = 2 * leaf_count k) by
       (unfold nodeIndexOf; apply w32_small; apply leaf_count_31 in Hk1; pose proof (leaf_count_lt k (S k) ltac:(lia)); lia);
     rewrite E, Ht, (proj2 (N.leb_le _ _)) by (rewrite node_leaf_count; lia); reflexivity|].
  { lia. }
  cbn [freeSlot]. assert (Hlt : li < leaf_count k) by lia. rewrite (nodeIndexOf_leaf k) by assumption.
  assert (E : (lenN t <=? 2 * li) = false) by (apply N.leb_gt; now apply (leaf_in_array k)). rewrite E.
  rewrite (at_leaf k) by assumption. cbn [rbind]. destruct (at_path k t (leafPath k li)) as [a|] eqn:Ea.
  - destruct (IH (li + 1)) as [(m & H1 & H2 & H3 & H4)|(H1 & H2)]; try lia.
    + left. exists m. splits; auto; try lia. intros j Hj. destruct (N.eq_dec j li) as [->|]; [congruence|]. apply H3. lia.
    + right. split; auto. intros j Hj. destruct (N.eq_dec j li) as [->|]; [congruence|]. apply H1. lia.
  - left. exists li. splits; auto; try lia.
Qed.

Lemma full_grown k t : full k t -> fits (S k) -> full (S k) (grown t).
Proof.
  intros [_ Ht] Hk. split; [assumption|]. unfold grown. rewrite lenN_app, Ht. unfold lenN. rewrite repeat_length.
  rewrite Nat2N.inj_succ. fold (lenN t). rewrite Ht, !node_leaf_count. unfold leaf_count. rewrite Nat2N.inj_succ, N.pow_succ_r'.
  pose proof (pow2_pos (N.of_nat k)). lia.
Qed.
Lemma full_grown_nil : full 0 (grown (@nil (option A))).
Proof. split; [unfold fits; lia|reflexivity]. Qed.

Lemma addSlot_ok k t : full k t ->
  (exists m, m < leaf_count k /\ at_path k t (leafPath k m) = None /\ (forall j, j < m -> at_path k t (leafPath k j) <> None) /\
             addSlot t = Ok (t, m)) \/
  ((forall j, j < leaf_count k -> at_path k t (leafPath k j) <> None) /\ (fits (S k) -> addSlot t = Ok (grown t, leaf_count k))).
Proof.
  intros F. unfold addSlot. destruct (freeSlot_spec k t F (S (length t)) 0) as [(m & H1 & H2 & H3 & H4)|(H1 & H2)].
  - destruct F as [_ F]. unfold lenN in F. rewrite node_leaf_count in F. pose proof (leaf_count_pos k). lia.
  - lia.
  - left. exists m. splits; try lia; auto. { intros; apply H3; lia. } rewrite H4. reflexivity.
  - right. split. { intros; apply H1; lia. } intros Hk. rewrite H2 by assumption. reflexivity.
Qed.
Lemma addSlot_nil : addSlot ([] : list (option A)) = Ok ([None], 0).
Proof. reflexivity. Qed.

Lemma at_path_grown k t p : full k t -> fits (S k) -> in_tree (S k) p -> at_path (S k) (grown t) p =
  match p with false :: r => at_path k t r | _ => None end.
Proof.
  intros F Hk Hp. unfold at_path, grown. pose proof F as [_ Ht]. unfold lenN in Ht.
  assert (Hout : (length t <= N.to_nat (number (S k) p))%nat -> match nth_error (t ++ repeat None (S (length t))) (N.to_nat (number (S k) p)) with Some o => o | None => None end = None).
  { intros H. rewrite nth_error_app2 by assumption. destruct (nth_error (repeat None _) _) eqn:E; [|reflexivity].
    apply nth_error_In in E. now apply repeat_spec in E. }
  destruct p as [|[|] r].
  - apply Hout. cbn [number pred Nat.eqb]. lia.
  - apply Hout. cbn [number]. lia.
  - cbn [number]. rewrite nth_error_app1; [reflexivity|]. assert (Hr : in_tree k r) by (unfold in_tree in *; cbn in Hp; lia).
    apply number_lt in Hr. lia.
Qed.
End AnyTree.

(** *** Adding, on values *)
Lemma shaped_full k t : shaped k t -> full k t.
Proof. now intros []. Qed.
Lemma shaped_grown k t : shaped k t -> fits (S k) -> shaped (S k) (grown t).
Proof.
  intros [F S] Hk. split; [now apply full_grown|]. intros p n Hp H. rewrite (at_path_grown k) in H by assumption.
  destruct p as [|[|] r]; try discriminate. apply S in H; [|unfold in_tree in *; cbn in Hp; lia].
  destruct n; cbn [placed length] in *; lia.
Qed.
Lemma shaped_grown_nil : shaped 0 (grown []).
Proof.
  split; [apply full_grown_nil|]. intros p n Hp H. unfold in_tree in Hp. destruct p; [|cbn in Hp; lia].
  cbn in H. discriminate.
Qed.
Lemma shaped_leaf k t li : shaped k t -> li < leaf_count k -> at_path k t (leafPath k li) = option_map NLeaf (leaf_at t li).
Proof.
  intros [F S] H. pose proof (at_leaf k t li F H) as G. apply getN_ok in G. unfold leaf_at. rewrite G.
  destruct (at_path k t (leafPath k li)) as [[l|p]|] eqn:E; cbn; try reflexivity.
  apply S in E; [|apply leafPath_in]. cbn in E. rewrite leafPath_length in E. lia.
Qed.
Lemma leaf_at_out k t li : full k t -> leaf_count k <= li -> leaf_at t li = None.
Proof.
  intros [_ Ht] H. unfold leaf_at. rewrite (proj2 (nth_error_None t _)); [reflexivity|]. unfold lenN in Ht. rewrite node_leaf_count in Ht. lia.
Qed.

(** The loop marking a new leaf as unmerged *)
Definition markLoop (li : N) (t : ratchetTree) (dp : list N) : res ratchetTree :=
  foldM (fun t x =>
           let! o := getN t x in
           match o with
           | None => Ok t
           | Some (NParent p) => setN t x (Some (NParent (addUnmergedLeaf p li)))
           | Some (NLeaf _) => Panic "nil pointer dereference"
           end) t dp.

Lemma markLoop_ok li : forall dp t, NoDup dp ->
  (forall x, In x dp -> exists o, getN t x = Ok o /\ forall l, o <> Some (NLeaf l)) ->
  exists t', markLoop li t dp = Ok t' /\ lenN t' = lenN t /\
    forall y, getN t' y = if memN y dp then rmap (option_map (with_unmerged li)) (getN t y) else getN t y.
Proof.
  induction dp as [|x dp IH]; intros t HN H; [exists t; cbn; auto|].
  inversion HN as [|? ? Hx HN']; subst. destruct (H x (or_introl eq_refl)) as (o & Ho & Hl). unfold markLoop. cbn [foldM].
  rewrite Ho. cbn [rbind]. fold (markLoop li).
  assert (G : exists t1, match o with
                         | None => Ok t
                         | Some (NParent p) => setN t x (Some (NParent (addUnmergedLeaf p li)))
                         | Some (NLeaf _) => Panic "nil pointer dereference"
                         end = Ok t1 /\ lenN t1 = lenN t /\
             forall y, getN t1 y = if y =? x then rmap (option_map (with_unmerged li)) (getN t y) else getN t y).
  { destruct o as [[l|p]|].
    - exfalso. now apply (Hl l).
    - assert (Hlt : x < lenN t) by (eapply getN_lt; eauto). rewrite setN_in by assumption. eexists. split; [reflexivity|].
      split; [apply lenN_upd|]. intros y. rewrite (getN_setN t x (Some (NParent (addUnmergedLeaf p li)))) by now apply setN_in.
      destruct (N.eqb_spec y x) as [->|]; [now rewrite Ho|reflexivity].
    - exists t. splits; auto. intros y. destruct (N.eqb_spec y x) as [->|]; [now rewrite Ho|reflexivity]. }
  destruct G as (t1 & E & L & G). rewrite E. cbn [rbind].
  destruct (IH t1 HN') as (t' & E' & L' & G').
  { intros y Hy. rewrite G. destruct (N.eqb_spec y x) as [->|]; [contradiction|]. apply H. cbn; auto. }
  exists t'. split; [exact E'|]. split; [congruence|]. intros y. rewrite G', G. unfold memN. cbn [existsb].
  destruct (N.eqb_spec y x) as [->|]; cbn [orb]; [|reflexivity].
  fold (memN x dp). now rewrite (proj2 (memN_false x dp) Hx).
Qed.

Lemma proper_ancestors_NoDup p : NoDup (proper_ancestors p).
Proof.
  apply NoDup_nth_error. intros i j Hi E. destruct (nth_error (proper_ancestors p) i) as [a|] eqn:Ea.
  - symmetry in E. apply proper_ancestors_sorted in Ea, E. lia.
  - apply nth_error_None in Ea. lia.
Qed.
Lemma dp_NoDup k p : in_tree k p -> NoDup (map (number k) (proper_ancestors p)).
Proof.
  intros Hp. assert (G : forall l, (forall a, In a l -> in_tree k a) -> NoDup l -> NoDup (map (number k) l)).
  { induction l as [|a l IH]; intros Hl Hn; cbn; [constructor|]. inversion Hn; subst. constructor.
    - rewrite in_map_iff. intros (b & E & Hb). apply number_inj in E; [subst; contradiction| |]; apply Hl; cbn; auto.
    - apply IH; auto. intros; apply Hl; cbn; auto. }
  apply G; [|apply proper_ancestors_NoDup]. intros a Ha. apply above_In in Ha. eapply above_in; eauto.
Qed.

Lemma placed_mark k p li n : placed k p n -> placed k p (with_unmerged li n).
Proof. destruct n; cbn; auto. Qed.

Definition addAt (t : ratchetTree) (li : N) (l : leafNode) : res ratchetTree :=
  let ni := nodeIndexOf li in
  let! dp := directPath (numLeaves t) ni in
  let! t2 := markLoop li t dp in
  setN t2 ni (Some (NLeaf l)).
Lemma vadd_addAt t l : vadd t l = let! (t1, li) := addSlot t in addAt t1 li l.
Proof. reflexivity. Qed.

Lemma addAt_ok k t li l : shaped k t -> li < leaf_count k ->
  exists t', addAt t li l = Ok t' /\ added k t t' li l.
Proof.
  intros Sh Hli. pose proof Sh as [F S]. pose proof F as [Hk Ht]. unfold addAt. rewrite (nodeIndexOf_leaf k) by assumption.
  rewrite (leaf_directPath k) by assumption. cbn [rbind]. pose proof (leafPath_in k li) as Hlp.
  destruct (markLoop_ok li (map (number k) (proper_ancestors (leafPath k li))) t) as (t1 & E1 & L1 & G1).
  { now apply dp_NoDup. }
  { intros x Hx. apply in_map_iff in Hx. destruct Hx as (a & <- & Ha). apply above_In in Ha. assert (Hin : in_tree k a) by (eapply above_in; eauto).
    exists (at_path k t a). split; [now apply at_path_getN|]. intros l0 E. apply S in E; auto. cbn in E. apply above_length in Ha.
    rewrite leafPath_length in Ha. lia. }
  rewrite E1. cbn [rbind]. assert (Hlt : 2 * li < lenN t1) by (rewrite L1; now apply (leaf_in_array k)).
  destruct (setN t1 (2 * li) (Some (NLeaf l))) as [t2| | |] eqn:E2; try (rewrite setN_in in E2 by assumption; discriminate).
  exists t2. split; [reflexivity|]. pose proof (setN_len _ _ _ _ E2) as L2.
  assert (F2 : full k t2) by (split; [assumption|congruence]).
  assert (G : forall p, in_tree k p -> at_path k t2 p =
            if number k p =? 2 * li then Some (NLeaf l) else
            if memN (number k p) (map (number k) (proper_ancestors (leafPath k li))) then option_map (with_unmerged li) (at_path k t p)
            else at_path k t p).
  { intros p Hp. apply Ok_inj. rewrite <- (at_path_getN k t2 p F2 Hp), (getN_setN _ _ _ _ _ E2).
    destruct (number k p =? 2 * li); [reflexivity|]. rewrite G1, (at_path_getN k t p F Hp).
    destruct (memN _ _); reflexivity. }
  assert (H1 : at_path k t2 (leafPath k li) = Some (NLeaf l)) by (rewrite G by assumption; now rewrite leafPath_number, N.eqb_refl by assumption).
  assert (H2 : forall p, in_tree k p -> above p (leafPath k li) -> at_path k t2 p = option_map (with_unmerged li) (at_path k t p)).
  { intros p Hp Ha. rewrite G by assumption. rewrite (proj2 (memN_dp k _ _ Hlp Hp) Ha).
    destruct (N.eqb_spec (number k p) (2 * li)) as [E|]; [|reflexivity]. exfalso. rewrite <- (leafPath_number k li Hli) in E.
    apply number_inj in E; auto. subst. eapply above_not_self; eauto. }
  assert (H3 : forall p, in_tree k p -> p <> leafPath k li -> ~ above p (leafPath k li) -> at_path k t2 p = at_path k t p).
  { intros p Hp Hne Ha. rewrite G by assumption. destruct (memN _ _) eqn:E; [apply memN_dp in E; auto; contradiction|].
    destruct (N.eqb_spec (number k p) (2 * li)) as [E0|]; [|reflexivity]. exfalso. rewrite <- (leafPath_number k li Hli) in E0.
    apply number_inj in E0; auto. }
  split; [|auto]. split; [assumption|]. intros p n Hp H. destruct (path_eq_dec p (leafPath k li)) as [->|Hne].
  - rewrite H1 in H. injection H as <-. cbn. apply leafPath_length.
  - destruct (above_dec p (leafPath k li)) as [Ha|Ha].
    + rewrite H2 in H by assumption. destruct (at_path k t p) eqn:E; [|discriminate]. cbn in H. injection H as <-. apply placed_mark. now apply S.
    + rewrite H3 in H by assumption. now apply S.
Qed.

Lemma room_fits k t : full k t -> room t -> (forall j, j < leaf_count k -> leaf_at t j <> None) -> fits (S k).
Proof.
  intros F [H|(li & H1 & H2)] Hno.
  - destruct F as [_ F]. rewrite F, node_leaf_count in H. unfold fits. assert (leaf_count k < leaf_count 31); [|now apply leaf_count_lt_inv in H0].
    change (leaf_count 31) with 2147483648. change (2 ^ 32) with 4294967296 in H. lia.
  - exfalso. apply (Hno li); auto. now apply (leaf_in_array k t).
Qed.

(** [vadd] on a well-shaped tree *)
Lemma vadd_ok t l : well_shaped t -> room t ->
  exists k t0 li t', vadd t l = Ok t' /\ leftmost_free t li /\
    (t0 = t \/ t0 = grown t /\ forall j, 2 * j < lenN t -> leaf_at t j <> None) /\ shaped k t0 /\ added k t0 t' li l.
Proof.
  intros [->|(k & Sh)] R; rewrite vadd_addAt.
  - rewrite addSlot_nil. cbn [rbind]. destruct (addAt_ok 0 (grown []) 0 l shaped_grown_nil) as (t' & E & A); [reflexivity|].
    exists 0%nat, (grown []), 0, t'. splits; auto.
    + split; [reflexivity|]. intros j Hj. lia.
    + right. split; [reflexivity|]. intros j Hj. change (lenN (@nil (option node))) with 0 in Hj. lia.
    + apply shaped_grown_nil.
  - pose proof (shaped_full k t Sh) as F. destruct (addSlot_ok k t F) as [(m & H1 & H2 & H3 & E)|(H1 & E)].
    + rewrite E. cbn [rbind]. destruct (addAt_ok k t m l Sh H1) as (t' & E' & A). exists k, t, m, t'. splits; auto.
      split.
      * rewrite (shaped_leaf k) in H2 by assumption. now destruct (leaf_at t m).
      * intros j Hj Hn. apply (H3 j Hj). rewrite (shaped_leaf k) by (auto; lia). now rewrite Hn.
    + assert (Hno : forall j, j < leaf_count k -> leaf_at t j <> None).
      { intros j Hj Hn. apply (H1 j Hj). rewrite (shaped_leaf k) by (auto; lia). now rewrite Hn. }
      assert (Hk1 : fits (S k)) by (eapply room_fits; eauto). rewrite E by assumption. cbn [rbind].
      destruct (addAt_ok (S k) (grown t) (leaf_count k) l) as (t' & E' & A).
      { now apply shaped_grown. }
      { pose proof (leaf_count_lt k (S k) ltac:(lia)). pose proof (leaf_count_pos k). lia. }
      exists (S k), (grown t), (leaf_count k), t'. splits; auto.
      * split; [|auto]. eapply leaf_at_out; eauto. lia.
      * right. split; [reflexivity|]. intros j Hj. apply Hno. now apply (leaf_in_array k t).
      * now apply shaped_grown.
Qed.

Lemma vadd_room t l t' : well_shaped t -> vadd t l = Ok t' -> room t.
Proof.
  intros [->|(k & Sh)] H; [left; reflexivity|]. pose proof (shaped_full k t Sh) as F. pose proof F as [Hk Ht].
  rewrite vadd_addAt in H. destruct (addSlot_ok k t F) as [(m & H1 & H2 & H3 & E)|(H1 & E)].
  - right. exists m. split; [now apply (leaf_in_array k)|]. rewrite (shaped_leaf k) in H2 by assumption. now destruct (leaf_at t m).
  - left. rewrite Ht, node_leaf_count. destruct (Nat.eq_dec k 31) as [->|Hne].
    2:{ assert (Hk1 : fits (S k)) by (unfold fits in *; lia). apply leaf_count_31 in Hk1. pose proof (leaf_count_lt k (S k) ltac:(lia)). pose proof (leaf_count_pos k).
        change (2 ^ 32) with 4294967296. change (2 ^ 31) with 2147483648 in *. lia. }
    exfalso. unfold addSlot in H.
    assert (G : forall fuel li, freeSlot fuel t li = Hang).
    { clear H. assert (Hd : forall li, exists a, getN t (nodeIndexOf li) = Ok (Some a) /\ (lenN t <=? nodeIndexOf li) = false).
      { intros li. rewrite nodeIndexOf_designated. assert (Hlt : designated li < leaf_count 31) by (unfold designated, leaf_count; apply N.mod_lt; cbn; lia).
        rewrite (at_leaf 31) by assumption. specialize (H1 _ Hlt). destruct (at_path _ _ _) as [a|]; [|congruence]. exists a. split; [reflexivity|].
        apply N.leb_gt. now apply (leaf_in_array 31). }
      induction fuel as [|f IH]; intros li; cbn [freeSlot]; destruct (Hd li) as (a & -> & ->); cbn [rbind]; auto. }
    rewrite G in H. discriminate.
Qed.
