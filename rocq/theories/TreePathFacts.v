(** tree_math.go against the path specification. *)
From Verif Require Export TreeMathFacts SpecTreeMath.

Lemma lenN_cons' {A} (a : A) l : lenN (a :: l) = lenN l + 1.
Proof. unfold lenN. cbn [length]. lia. Qed.

Lemma val_snoc p b : val (p ++ [b]) = 2 * val p + N.b2n b.
Proof.
  induction p as [|c p IH]; cbn [app val].
  - change (lenN (@nil bool)) with 0. rewrite pow2_0. lia.
  - rewrite IH. rewrite lenN_app. change (lenN [b]) with 1. rewrite pow2_S. lia.
Qed.

Lemma val_lt p : val p < 2 ^ lenN p.
Proof.
  induction p as [|c p IH]; cbn [val]; [reflexivity|]. rewrite lenN_cons', pow2_S. destruct c; cbn [N.b2n]; lia.
Qed.

Lemma val_app p q : val (p ++ q) = val p * 2 ^ lenN q + val q.
Proof.
  induction p as [|c p IH]; cbn [app val]; [lia|]. rewrite IH, lenN_app, N.pow_add_r. lia.
Qed.

Lemma node_count_eq k : node_count k = 2 * 2 ^ N.of_nat k - 1.
Proof. unfold node_count. rewrite Nat2N.inj_succ, <- N.add_1_r, pow2_S. reflexivity. Qed.

Lemma number_nil k : number k [] = 2 ^ N.of_nat k - 1.
Proof.
  destruct k; cbn [number]; [reflexivity|]. cbn [pred Nat.eqb]. rewrite N.mul_1_r. reflexivity.
Qed.

Lemma nd_add l b m v : nd l (b * 2 ^ m + v) = b * 2 ^ (m + l + 1) + nd l v.
Proof.
  unfold nd. rewrite <- (N.add_assoc m l 1), (N.pow_add_r 2 m (l + 1)), N.mul_add_distr_r, N.mul_assoc. pose proof (pow2_pos l). lia.
Qed.

Lemma number_nd k : forall p, in_tree k p -> number k p = nd (N.of_nat k - lenN p) (val p).
Proof.
  induction k as [|k IH]; intros p H; unfold in_tree in H.
  - destruct p; [reflexivity|cbn in H; lia].
  - destruct p as [|b p].
    + rewrite number_nil. change (lenN (@nil bool)) with 0. rewrite N.sub_0_r. cbn [val]. unfold nd. lia.
    + cbn [length] in H. assert (Hp : in_tree k p) by (unfold in_tree; lia).
      assert (E : number (S k) (b :: p) = N.b2n b * 2 ^ N.of_nat (S k) + number k p).
      { destruct b; cbn [number N.b2n]; [|lia]. unfold node_count. pose proof (pow2_pos (N.of_nat (S k))). lia. }
      rewrite E, (IH p Hp), lenN_cons'. cbn [val].
      replace (N.of_nat (S k) - (lenN p + 1)) with (N.of_nat k - lenN p) by lia.
      rewrite nd_add. unfold lenN. replace (N.of_nat (length p) + (N.of_nat k - N.of_nat (length p)) + 1) with (N.of_nat (S k)) by lia. reflexivity.
Qed.

Lemma val_inj : forall p q, length p = length q -> val p = val q -> p = q.
Proof.
  induction p as [|b p IH]; intros [|c q] HL E; try discriminate; auto.
  cbn [length val] in *. injection HL as HL. assert (HN : lenN p = lenN q) by (unfold lenN; now rewrite HL).
  pose proof (val_lt p). pose proof (val_lt q). rewrite HN in *.
  destruct b, c; cbn [N.b2n] in E; try lia; f_equal; apply IH; auto; lia.
Qed.

Lemma val_onto n : forall i, i < 2 ^ N.of_nat n -> exists p, length p = n /\ val p = i.
Proof.
  induction n as [|n IH]; intros i Hi.
  - exists []. split; auto. change (2 ^ N.of_nat 0) with 1 in Hi. cbn. lia.
  - rewrite Nat2N.inj_succ, <- N.add_1_r, pow2_S in Hi.
    destruct (IH (i / 2)) as (p & HL & HV); [apply N.div_lt_upper_bound; lia|].
    exists (p ++ [N.odd i]). split; [rewrite app_length; cbn; lia|].
    rewrite val_snoc, HV. rewrite (N.div_mod i 2) at 3 by lia. rewrite <- N.bit0_mod, N.bit0_odd. reflexivity.
Qed.

Lemma in_tree_inTree k p : in_tree k p -> inTree (N.of_nat k) (N.of_nat k - lenN p) (val p).
Proof.
  intros H. unfold in_tree in H. unfold inTree, lenN. split; [lia|].
  replace (N.of_nat k - (N.of_nat k - N.of_nat (length p))) with (lenN p) by (unfold lenN; lia). apply val_lt.
Qed.

Lemma number_inj k p q : in_tree k p -> in_tree k q -> number k p = number k q -> p = q.
Proof.
  intros Hp Hq E. rewrite !number_nd in E by assumption. apply nd_inj in E. destruct E as [E1 E2].
  apply val_inj; auto. unfold in_tree, lenN in *. lia.
Qed.

Lemma number_onto k x : x < node_count k -> exists p, in_tree k p /\ number k p = x.
Proof.
  intros H. rewrite node_count_eq in H. apply inTree_exists in H. destruct H as (l & i & -> & [H1 H2]).
  destruct (val_onto (N.to_nat (N.of_nat k - l)) i) as (p & HL & HV); [now rewrite N2Nat.id|].
  exists p. assert (in_tree k p) by (unfold in_tree; lia). split; auto.
  rewrite number_nd by assumption. f_equal; auto. unfold lenN. lia.
Qed.

Lemma number_lt k p : in_tree k p -> number k p < node_count k.
Proof. intros H. rewrite number_nd, node_count_eq by assumption. apply inTree_lt. now apply in_tree_inTree. Qed.

Lemma fitsN k : fits k -> N.of_nat k <= 31.
Proof. unfold fits. lia. Qed.

Lemma number_32 k p : fits k -> in_tree k p -> number k p < 2 ^ 32 - 1.
Proof.
  intros Hf H. apply number_lt in H. rewrite node_count_eq in H.
  assert (2 ^ N.of_nat k <= 2 ^ 31) by (apply pow2_le; now apply fitsN). change (2 ^ 31) with 2147483648 in *. rewrite pow2_32. lia.
Qed.

Section Facts.
  Variable k : nat.
  Hypothesis Hk : fits k.
  Notation "# p" := (number k p) (at level 9).

  Lemma in_tree_snoc p b : in_tree k (p ++ [b]) <-> (length p < k)%nat.
  Proof. unfold in_tree. rewrite app_length. cbn. lia. Qed.

  Lemma number_snoc p b : (length p < k)%nat -> #(p ++ [b]) = nd (N.of_nat k - lenN p - 1) (2 * val p + N.b2n b).
  Proof.
    intros H. rewrite number_nd by now apply in_tree_snoc. rewrite val_snoc, lenN_app. change (lenN [b]) with 1. f_equal. lia.
  Qed.
  Lemma number_inner p : (length p < k)%nat -> #p = nd (N.of_nat k - lenN p - 1 + 1) (val p).
  Proof. intros H. rewrite number_nd by (unfold in_tree; lia). f_equal. unfold lenN. lia. Qed.

  Lemma path_root : root (leaf_count k) = #(@nil bool).
  Proof. unfold leaf_count. rewrite root_full by now apply fitsN. rewrite number_nd by (unfold in_tree; cbn; lia). f_equal. unfold lenN; cbn; lia. Qed.

  Lemma path_parent_root : parent (leaf_count k) #(@nil bool) = None.
  Proof. unfold parent. rewrite path_root, N.eqb_refl. reflexivity. Qed.

  Lemma path_parent p b : (length p < k)%nat -> parent (leaf_count k) #(p ++ [b]) = Some #p.
  Proof.
    intros H. pose proof (fitsN k Hk).
    assert (Hin : in_tree k (p ++ [b])) by now apply in_tree_snoc.
    pose proof (in_tree_inTree _ _ Hin) as HI. rewrite lenN_app in HI. change (lenN [b]) with 1 in HI. rewrite val_snoc in HI.
    replace (N.of_nat k - (lenN p + 1)) with (N.of_nat k - lenN p - 1) in HI by lia.
    rewrite number_snoc, number_inner by assumption. unfold leaf_count.
    rewrite parent_nd by (auto; unfold lenN in *; lia). do 2 f_equal.
    symmetry. apply N.div_unique with (N.b2n b); destruct b; cbn [N.b2n]; lia.
  Qed.

  Lemma path_children p : (length p < k)%nat -> children #p = Some (#(p ++ [false]), #(p ++ [true])).
  Proof.
    intros H. rewrite !number_snoc by assumption.
    assert (#p < 2 ^ 32 - 1) by (apply number_32; [assumption|unfold in_tree; lia]).
    rewrite number_inner in * by assumption. rewrite children_nd by assumption. cbn [N.b2n]. now rewrite N.add_0_r.
  Qed.
  Lemma path_left p : (length p < k)%nat -> left #p = Some #(p ++ [false]).
  Proof.
    intros H. rewrite !number_snoc by assumption.
    assert (#p < 2 ^ 32 - 1) by (apply number_32; [assumption|unfold in_tree; lia]).
    rewrite number_inner in * by assumption. rewrite left_nd by lia. cbn [N.b2n]. now rewrite N.add_0_r.
  Qed.
  Lemma path_right p : (length p < k)%nat -> right #p = Some #(p ++ [true]).
  Proof.
    intros H. rewrite !number_snoc by assumption.
    assert (#p < 2 ^ 32 - 1) by (apply number_32; [assumption|unfold in_tree; lia]).
    rewrite number_inner in * by assumption. now rewrite right_nd by lia.
  Qed.

  Lemma path_order p : (length p < k)%nat -> #(p ++ [false]) < #p < #(p ++ [true]).
  Proof.
    intros H. rewrite !number_snoc, number_inner by assumption. unfold nd. rewrite !pow2_S.
    pose proof (pow2_pos (N.of_nat k - lenN p - 1)). cbn [N.b2n]. lia.
  Qed.

  Lemma path_sibling p b : (length p < k)%nat -> sibling (leaf_count k) #(p ++ [b]) = Some #(p ++ [negb b]).
  Proof.
    intros H. unfold sibling. rewrite path_parent by assumption. pose proof (path_order p H) as [H1 H2].
    destruct b; cbn [negb].
    - destruct (N.ltb_spec #(p ++ [true]) #p); [lia|]. now apply path_left.
    - destruct (N.ltb_spec #(p ++ [false]) #p); [|lia]. now apply path_right.
  Qed.
  Lemma path_sibling_root : sibling (leaf_count k) #(@nil bool) = None.
  Proof. unfold sibling. now rewrite path_parent_root. Qed.

  Lemma path_level p : in_tree k p -> level #p = N.of_nat k - lenN p.
  Proof. intros H. pose proof (number_32 k p Hk H). rewrite number_nd in * by assumption. apply level_nd. lia. Qed.

  Lemma path_leaf p : length p = k -> children #p = None /\ left #p = None /\ right #p = None.
  Proof.
    intros H. assert (Hin : in_tree k p) by (unfold in_tree; lia). pose proof (number_32 k p Hk Hin).
    rewrite number_nd in * by assumption. replace (N.of_nat k - lenN p) with 0 in * by (unfold lenN; lia).
    apply children_leaf. rewrite nd_0 in *. lia.
  Qed.

  Lemma path_isLeaf p : in_tree k p -> isLeaf #p = (length p =? k)%nat.
  Proof.
    intros H. rewrite number_nd by assumption. unfold isLeaf. unfold in_tree in H.
    destruct (Nat.eqb_spec (length p) k).
    - replace (N.of_nat k - lenN p) with 0 by (unfold lenN; lia). rewrite nd_0, N.mul_comm, N.mod_mul by lia. reflexivity.
    - replace (N.of_nat k - lenN p) with (N.of_nat k - lenN p - 1 + 1) by (unfold lenN; lia). rewrite nd_S.
      rewrite N.add_comm, N.mul_comm, N.mod_add by lia. reflexivity.
  Qed.

  (** ** Ancestors by last step *)
  Lemma proper_ancestors_snoc p b : proper_ancestors (p ++ [b]) = p :: proper_ancestors p.
  Proof. induction p as [|c p IH]; cbn [app proper_ancestors]; [reflexivity|]. rewrite IH. reflexivity. Qed.
  Lemma siblings_up_snoc p b : siblings_up (p ++ [b]) = (p ++ [negb b]) :: siblings_up p.
  Proof. induction p as [|c p IH]; cbn [app siblings_up]; [reflexivity|]. rewrite IH. reflexivity. Qed.

  Lemma path_directPathLoop p : in_tree k p -> forall fuel, (length p <= fuel)%nat ->
    directPathLoop fuel (leaf_count k) #p = Ok (map (number k) (proper_ancestors p)).
  Proof.
    induction p as [|b p IH] using rev_ind; intros Hin fuel Hf.
    - destruct fuel; cbn [directPathLoop]; now rewrite path_parent_root.
    - apply in_tree_snoc in Hin. rewrite app_length in Hf. cbn in Hf. destruct fuel as [|fuel]; [lia|].
      cbn [directPathLoop]. rewrite path_parent by assumption. rewrite IH by (unfold in_tree; lia).
      rewrite proper_ancestors_snoc. reflexivity.
  Qed.
  Lemma path_directPath p : in_tree k p -> directPath (leaf_count k) #p = Ok (map (number k) (proper_ancestors p)).
  Proof. intros H. apply path_directPathLoop; auto. unfold in_tree, fits in *. lia. Qed.

  Lemma path_siblings p : in_tree k p ->
    siblings (leaf_count k) (removelast (#p :: map (number k) (proper_ancestors p))) = Ok (map (number k) (siblings_up p)).
  Proof.
    induction p as [|b p IH] using rev_ind; intros Hin.
    - reflexivity.
    - apply in_tree_snoc in Hin. rewrite proper_ancestors_snoc, siblings_up_snoc.
      change (map (number k) (p :: proper_ancestors p)) with (#p :: map (number k) (proper_ancestors p)).
      change (removelast (#(p ++ [b]) :: #p :: map (number k) (proper_ancestors p)))
        with (#(p ++ [b]) :: removelast (#p :: map (number k) (proper_ancestors p))).
      cbn [siblings]. rewrite path_sibling by assumption. rewrite IH by (unfold in_tree; lia). reflexivity.
  Qed.
  Lemma path_copath p : in_tree k p -> copath (leaf_count k) #p = Ok (map (number k) (siblings_up p)).
  Proof.
    intros H. unfold copath. rewrite path_directPath by assumption. cbn [rbind].
    destruct p as [|b p _] using rev_ind; [reflexivity|].
    rewrite proper_ancestors_snoc. cbn [map]. 
    pose proof (path_siblings (p ++ [b]) H) as E. rewrite proper_ancestors_snoc in E. exact E.
  Qed.

  (** ** Common ancestor *)
  Lemma nd_shiftr l i j : N.shiftr (nd l i) (l + 1 + j) = N.shiftr i j.
  Proof.
    apply N.bits_inj. intros m. rewrite !N.shiftr_spec by lia. rewrite nd_bit.
    destruct (N.ltb_spec (m + (l + 1 + j)) l); [lia|]. destruct (N.eqb_spec (m + (l + 1 + j)) l); [lia|]. f_equal. lia.
  Qed.

  Lemma val_shiftr r s : N.shiftr (val (r ++ s)) (lenN s) = val r.
  Proof.
    rewrite val_app, N.shiftr_div_pow2. pose proof (pow2_pos (lenN s)). rewrite N.div_add_l by lia.
    rewrite N.div_small by apply val_lt. lia.
  Qed.

  Lemma number_shiftr r s : in_tree k (r ++ s) -> N.shiftr #(r ++ s) (N.of_nat k - lenN r + 1) = val r.
  Proof.
    intros H. rewrite number_nd by assumption. unfold in_tree in H. rewrite app_length in H.
    replace (N.of_nat k - lenN r + 1) with (N.of_nat k - lenN (r ++ s) + 1 + lenN s) by (rewrite lenN_app; unfold lenN; lia).
    rewrite nd_shiftr. apply val_shiftr.
  Qed.

  Lemma split_at (p : path) n : (n <= length p)%nat -> exists r s, p = r ++ s /\ length r = n.
  Proof. intros H. exists (firstn n p), (skipn n p). split; [now rewrite firstn_skipn|]. now rewrite firstn_length_le. Qed.

  Lemma prefix_dec (p q : path) :
    (exists s, p = q ++ s) \/ (exists s, q = p ++ s) \/ (exists r b s t, p = r ++ b :: s /\ q = r ++ negb b :: t).
  Proof.
    revert q. induction p as [|b p IH]; intros [|c q].
    - left. now exists [].
    - right. left. eexists. reflexivity.
    - left. eexists. reflexivity.
    - destruct (bool_dec b c) as [->|Hn].
      + destruct (IH q) as [(s & ->)|[(s & ->)|(r & d & s & t & -> & ->)]].
        * left. now exists s.
        * right. left. now exists s.
        * right. right. now exists (c :: r), d, s, t.
      + right. right. exists [], b, p, q. split; auto. cbn. f_equal. destruct b, c; try reflexivity; now elim Hn.
  Qed.

  Lemma shiftr_eq_prefix p q : in_tree k p -> in_tree k q -> (length q <= length p)%nat ->
    N.shiftr #p (N.of_nat k - lenN q + 1) = N.shiftr #q (N.of_nat k - lenN q + 1) <-> exists s, p = q ++ s.
  Proof.
    intros Hp Hq HL. destruct (split_at p (length q) HL) as (r & s & -> & Hr).
    assert (HN : lenN q = lenN r) by (unfold lenN; now rewrite Hr). rewrite HN at 1. rewrite number_shiftr by assumption.
    pose proof (number_shiftr q []) as E0. rewrite app_nil_r in E0. rewrite E0 by assumption. clear E0.
    split.
    - intros E. apply val_inj in E; auto. subst r. now exists s.
    - intros (t & E). 
      assert (r = q).
      { apply (f_equal (firstn (length q))) in E.
        rewrite firstn_app, <- Hr, Nat.sub_diag, firstn_O, app_nil_r, firstn_all in E.
        rewrite Hr, firstn_app, Nat.sub_diag, firstn_O, app_nil_r, firstn_all in E. assumption. }
      now subst r.
  Qed.

  Lemma commonAncestorLoop_spec x y m : N.shiftr x m <> N.shiftr y m -> N.shiftr x (m + 1) = N.shiftr y (m + 1) ->
    forall fuel j, j <= m + 1 -> m + 1 <= j + N.of_nat fuel ->
    commonAncestorLoop fuel (N.shiftr x j) (N.shiftr y j) j = (N.shiftr x (m + 1), m + 1).
  Proof.
    intros Hne Heq. induction fuel as [|f IH]; intros j H1 H2; cbn [commonAncestorLoop].
    - replace j with (m + 1) by lia. reflexivity.
    - destruct (N.eqb_spec (N.shiftr x j) (N.shiftr y j)) as [E|E].
      + assert (j = m + 1); [|now subst].
        destruct (N.le_gt_cases j m); [|lia]. exfalso. apply Hne.
        replace m with (j + (m - j)) by lia. rewrite <- !N.shiftr_shiftr, E. reflexivity.
      + rewrite !N.shiftr_shiftr. apply IH; [|lia]. destruct (N.eq_dec j (m + 1)) as [->|]; [contradiction|lia].
  Qed.

  Lemma path_commonAncestor p q : in_tree k p -> in_tree k q ->
    exists r, commonAncestor #p #q = #r /\ (exists s, p = r ++ s) /\ (exists s, q = r ++ s) /\
              (forall a, (exists s, p = a ++ s) -> (exists s, q = a ++ s) -> exists s, r = a ++ s).
  Proof.
    intros Hp Hq. unfold commonAncestor. rewrite !path_level by assumption.
    pose proof Hp as Hp'. pose proof Hq as Hq'. unfold in_tree in Hp', Hq'. pose proof (fitsN k Hk).
    destruct (prefix_dec p q) as [Hpre|[Hpre|Hdiv]].
    - (* q above p *)
      assert (HL : (length q <= length p)%nat) by (destruct Hpre as (s & ->); rewrite app_length; lia).
      pose proof (proj2 (shiftr_eq_prefix p q Hp Hq HL) Hpre) as E. rewrite E, N.eqb_refl.
      destruct (N.leb_spec (N.of_nat k - lenN p + 1) (N.of_nat k - lenN q + 1)); [|unfold lenN in *; lia]. cbn [andb].
      exists q. splits; auto. exists []. now rewrite app_nil_r.
    - (* p above q *)
      assert (HL : (length p <= length q)%nat) by (destruct Hpre as (s & ->); rewrite app_length; lia).
      pose proof (proj2 (shiftr_eq_prefix q p Hq Hp HL) Hpre) as E.
      destruct ((N.of_nat k - lenN p + 1 <=? N.of_nat k - lenN q + 1) && (N.shiftr #p (N.of_nat k - lenN q + 1) =? N.shiftr #q (N.of_nat k - lenN q + 1))) eqn:C.
      + apply andb_true_iff in C. destruct C as [C _]. apply N.leb_le in C.
        assert (length p = length q) by (unfold lenN in *; lia). destruct Hpre as (s & ->). rewrite app_length in *.
        assert (s = []) by (destruct s; [reflexivity|cbn in *; lia]). subst s. rewrite app_nil_r.
        exists p. splits; auto; exists []; now rewrite app_nil_r.
      + rewrite <- E, N.eqb_refl.
        destruct (N.leb_spec (N.of_nat k - lenN q + 1) (N.of_nat k - lenN p + 1)); [|unfold lenN in *; lia]. cbn [andb].
        exists p. splits; auto. exists []. now rewrite app_nil_r.
    - destruct Hdiv as (r & b & s & t & Ep & Eq').
      assert (Hnp : ~ exists z, p = q ++ z).
      { intros (z & E). rewrite Ep, Eq', <- app_assoc in E. apply app_inv_head in E. destruct b; discriminate. }
      assert (Hnq : ~ exists z, q = p ++ z).
      { intros (z & E). rewrite Ep, Eq', <- app_assoc in E. apply app_inv_head in E. destruct b; discriminate. }
      replace ((N.of_nat k - lenN p + 1 <=? N.of_nat k - lenN q + 1) && (N.shiftr #p (N.of_nat k - lenN q + 1) =? N.shiftr #q (N.of_nat k - lenN q + 1))) with false.
      2:{ symmetry. apply andb_false_iff. destruct (N.leb_spec (N.of_nat k - lenN p + 1) (N.of_nat k - lenN q + 1)); auto. right.
          apply N.eqb_neq. intros E. apply Hnp. apply shiftr_eq_prefix in E; auto. unfold lenN in *. lia. }
      replace ((N.of_nat k - lenN q + 1 <=? N.of_nat k - lenN p + 1) && (N.shiftr #p (N.of_nat k - lenN p + 1) =? N.shiftr #q (N.of_nat k - lenN p + 1))) with false.
      2:{ symmetry. apply andb_false_iff. destruct (N.leb_spec (N.of_nat k - lenN q + 1) (N.of_nat k - lenN p + 1)); auto. right.
          apply N.eqb_neq. intros E. apply Hnq. symmetry in E. apply shiftr_eq_prefix in E; auto. unfold lenN in *. lia. }
      set (m := N.of_nat k - lenN r).
      assert (Hr : (length r < k)%nat) by (rewrite Ep, app_length in Hp'; cbn in Hp'; lia).
      assert (Hm : m <= 31 /\ 1 <= m) by (unfold m, lenN; lia).
      assert (Hsp : forall c u w, w = r ++ c :: u -> in_tree k w -> N.shiftr #w m = 2 * val r + N.b2n c /\ N.shiftr #w (m + 1) = val r).
      { intros c u w -> Hw. split.
        - replace (r ++ c :: u) with ((r ++ [c]) ++ u) in * by now rewrite <- app_assoc.
          rewrite <- val_snoc. rewrite <- (number_shiftr (r ++ [c]) u) by assumption. f_equal.
          rewrite lenN_app. change (lenN [c]) with 1. unfold m, lenN. lia.
        - unfold m. now rewrite number_shiftr. }
      destruct (Hsp _ _ _ Ep Hp) as [P1 P2]. destruct (Hsp _ _ _ Eq' Hq) as [Q1 Q2].
      assert (HLoop : commonAncestorLoop 32 #p #q 0 = (val r, m + 1)).
      { rewrite <- (N.shiftr_0_r #p) at 1. rewrite <- (N.shiftr_0_r #q) at 1. rewrite <- P2.
        apply commonAncestorLoop_spec; try lia.
        rewrite P1, Q1. destruct b; cbn [negb N.b2n]; lia. }
      rewrite HLoop. exists r.
      assert (Hrin : in_tree k r) by (unfold in_tree; lia).
      splits.
      + replace (m + 1 - 1) with m by lia. rewrite N.shiftl_1_l, N.shiftl_mul_pow2.
        pose proof (number_32 k r Hk Hrin) as HB. rewrite number_nd in * by assumption. fold m in HB |- *.
        unfold nd in *. apply w32_small. lia.
      + now exists (b :: s).
      + now exists (negb b :: t).
      + intros a (s1 & E1) (s2 & E2).
        destruct (prefix_dec a r) as [(z & ->)|[(z & ->)|(r' & c & s' & t' & -> & ->)]].
        * destruct z as [|c z]; [rewrite app_nil_r; exists []; now rewrite app_nil_r|].
          exfalso. rewrite Ep, <- app_assoc in E1. rewrite Eq', <- app_assoc in E2.
          apply app_inv_head in E1, E2. cbn [app] in E1, E2. injection E1 as E1 _. injection E2 as E2 _. destruct b; cbn in *; congruence.
        * now exists z.
        * exfalso. rewrite Ep, <- !app_assoc in E1. apply app_inv_head in E1. cbn [app] in E1. injection E1 as E1 _. destruct c; discriminate.
  Qed.
End Facts.
