(** Facts about tree_math.go in terms of coordinates: [nd l i] is the [i]-th
    node of level [l]. *)
From Verif Require Export TreeMath CodecFacts2.

Definition nd (l i : N) : N := i * 2 ^ (l + 1) + 2 ^ l - 1.

Lemma pow2_0 : 2 ^ 0 = 1. Proof. reflexivity. Qed.
Lemma pow2_32 : 2 ^ 32 = 4294967296. Proof. reflexivity. Qed.

Lemma nd_0 i : nd 0 i = 2 * i.
Proof. unfold nd. rewrite pow2_0. change (2 ^ (0 + 1)) with 2. lia. Qed.
Lemma nd_S l i : nd (l + 1) i = 2 * nd l i + 1.
Proof. unfold nd. rewrite !pow2_S. pose proof (pow2_pos l). lia. Qed.

Lemma nd_spec l i : nd l i = N.shiftl i (l + 1) + N.ones l.
Proof. unfold nd. rewrite N.shiftl_mul_pow2, N.ones_equiv. pose proof (pow2_pos l). lia. Qed.

(** Every index below 2^32-1 ... is a node of some level. *)
Lemma nd_exists x : exists l i, x = nd l i.
Proof.
  induction x as [x IH] using (well_founded_induction N.lt_wf_0).
  destruct (N.even x) eqn:E.
  - apply N.even_spec in E. destruct E as [k ->]. exists 0, k. now rewrite nd_0.
  - assert (O : N.odd x = true) by (rewrite <- N.negb_even, E; reflexivity).
    apply N.odd_spec in O. destruct O as [k ->]. destruct (IH k) as (l & i & ->); [lia|].
    exists (l + 1), i. now rewrite nd_S.
Qed.

Lemma nd_bit l i k : N.testbit (nd l i) k = if k <? l then true else if k =? l then false else N.testbit i (k - l - 1).
Proof.
  revert k. induction l using N.peano_ind; intros k.
  - rewrite nd_0. destruct (N.ltb_spec k 0); [lia|]. destruct (N.eqb_spec k 0) as [->|].
    + apply N.testbit_even_0.
    + replace k with (N.succ (k - 1)) at 1 by lia. rewrite N.testbit_even_succ by lia. f_equal. lia.
  - rewrite <- N.add_1_r, nd_S. destruct (N.eqb_spec k 0) as [->|].
    + rewrite N.testbit_odd_0. destruct (N.ltb_spec 0 (l + 1)); [reflexivity|lia].
    + replace k with (N.succ (k - 1)) at 1 by lia. rewrite N.testbit_odd_succ by lia. rewrite IHl.
      destruct (N.ltb_spec (k - 1) l), (N.ltb_spec k (l + 1)); try lia; auto.
      destruct (N.eqb_spec (k - 1) l), (N.eqb_spec k (l + 1)); try lia; auto.
      f_equal. lia.
Qed.

Lemma nd_inj l i l' i' : nd l i = nd l' i' -> l = l' /\ i = i'.
Proof.
  intros E.
  assert (Hl : l = l').
  { destruct (N.lt_trichotomy l l') as [H|[H|H]]; auto; exfalso.
    - pose proof (nd_bit l i l) as B. rewrite E, nd_bit in B.
      destruct (N.ltb_spec l l'); [|lia]. destruct (N.ltb_spec l l); [lia|]. rewrite N.eqb_refl in B. discriminate.
    - pose proof (nd_bit l' i' l') as B. rewrite <- E, nd_bit in B.
      destruct (N.ltb_spec l' l); [|lia]. destruct (N.ltb_spec l' l'); [lia|]. rewrite N.eqb_refl in B. discriminate. }
  subst l'. split; auto. unfold nd in E. pose proof (pow2_pos l). pose proof (pow2_pos (l + 1)).
  assert (i * 2 ^ (l + 1) = i' * 2 ^ (l + 1)) by lia. apply N.mul_cancel_r in H1; lia.
Qed.

(** ** level *)
Lemma land1 x : N.land x 1 = N.b2n (N.testbit x 0).
Proof. change 1 with (N.ones 1). rewrite N.land_ones. change (2^1) with 2. rewrite <- N.bit0_mod. reflexivity. Qed.
Lemma shiftr_land1 x k : (N.land (N.shiftr x k) 1 =? 1) = N.testbit x k.
Proof. rewrite land1, N.shiftr_spec by lia. rewrite N.add_0_l. destruct (N.testbit x k); reflexivity. Qed.

Lemma levelLoop_nd fuel : forall l i k, k <= l -> l <= k + N.of_nat fuel -> levelLoop fuel (nd l i) k = l.
Proof.
  induction fuel as [|f IH]; intros l i k H1 H2; cbn [levelLoop].
  - lia.
  - rewrite shiftr_land1, nd_bit. destruct (N.ltb_spec k l).
    + apply IH; lia.
    + replace k with l by lia. now rewrite N.eqb_refl.
Qed.

Lemma nd_lt_level l i : nd l i < 2^32 -> l <= 32.
Proof.
  intros H. apply N.nlt_ge. intros Hl.
  assert (2 ^ 33 <= 2 ^ l) by (apply pow2_le; lia). change (2 ^ 33) with (2 * 2 ^ 32) in *.
  unfold nd in H. pose proof (pow2_pos 32). lia.
Qed.

Lemma level_nd l i : nd l i < 2^32 -> level (nd l i) = l.
Proof.
  intros H. unfold level. pose proof (nd_lt_level _ _ H).
  rewrite land1, nd_bit. destruct (N.ltb_spec 0 l); cbn [N.b2n].
  - change (1 =? 0) with false. cbv iota. apply levelLoop_nd; lia.
  - assert (l = 0) by lia. subst l. reflexivity.
Qed.

(** ** log2, root *)
Lemma log2Loop_spec fuel : forall x k, 0 < x -> k <= N.log2 x + 1 -> N.log2 x < k + N.of_nat fuel ->
  log2Loop fuel x k = N.log2 x.
Proof.
  induction fuel as [|f IH]; intros x k Hx H1 H2; cbn [log2Loop].
  - lia.
  - assert (Hs : 0 < N.shiftr x k <-> k <= N.log2 x).
    { rewrite N.shiftr_div_pow2. pose proof (pow2_pos k). split; intros Hd.
      - apply N.log2_le_pow2; auto. apply N.nlt_ge. intros Hlt. rewrite N.div_small in Hd by assumption. lia.
      - apply N.log2_le_pow2 in Hd; auto. apply N.div_str_pos. lia. }
    destruct (N.ltb_spec 0 (N.shiftr x k)) as [H|H].
    + apply IH; [assumption| |lia]. apply Hs in H. lia.
    + assert (~ k <= N.log2 x) by (intros Hc; apply Hs in Hc; lia). lia.
Qed.

Lemma log2_spec x : 0 < x < 2^32 -> log2 x = N.log2 x.
Proof.
  intros [H1 H2]. unfold log2. destruct (N.eqb_spec x 0); [lia|].
  apply log2Loop_spec; try lia. change (0 + N.of_nat 32) with 32. apply N.log2_lt_pow2; lia.
Qed.

Lemma w32_small x : x < 2^32 -> w32 x = x.
Proof. intros. apply N.mod_small. assumption. Qed.

Lemma pow2_lt_32 d : d <= 31 -> 2 ^ d < 2^32.
Proof. intros H. apply N.pow_lt_mono_r; lia. Qed.

Lemma root_full d : d <= 31 -> root (2 ^ d) = nd d 0.
Proof.
  intros Hd. unfold root, width. pose proof (pow2_pos d). pose proof (pow2_lt_32 d Hd).
  destruct (N.eqb_spec (2 ^ d) 0); [lia|].
  assert (Hw : 2 * (2 ^ d - 1) + 1 < 2 ^ 32).
  { assert (2 ^ d <= 2 ^ 31) by (apply pow2_le; lia). change (2 ^ 31) with 2147483648 in *. rewrite pow2_32. lia. }
  rewrite (w32_small (2 * (2 ^ d - 1) + 1)) by assumption.
  rewrite log2_spec by lia.
  assert (HL : N.log2 (2 * (2 ^ d - 1) + 1) = d).
  { apply N.log2_unique; [lia|]. rewrite <- N.add_1_r, pow2_S. lia. }
  rewrite HL, N.shiftl_1_l, w32_small by assumption. unfold nd. lia.
Qed.

Lemma numLeaves_full d : numLeavesFromWidth (2 * 2 ^ d - 1) = 2 ^ d.
Proof.
  unfold numLeavesFromWidth. pose proof (pow2_pos d). destruct (N.eqb_spec (2 * 2 ^ d - 1) 0); [lia|].
  replace (2 * 2 ^ d - 1 - 1) with ((2 ^ d - 1) * 2) by lia. rewrite N.div_mul by lia. lia.
Qed.

(** A node of the full tree with [2^d] leaves *)
Definition inTree (d l i : N) : Prop := l <= d /\ i < 2 ^ (d - l).

Lemma pow2_split a b : a <= b -> 2 ^ b = 2 ^ a * 2 ^ (b - a).
Proof. intros H. rewrite <- N.pow_add_r. f_equal. lia. Qed.

Lemma inTree_lt d l i : inTree d l i -> nd l i < 2 * 2 ^ d - 1.
Proof.
  intros [Hl Hi]. unfold nd. rewrite pow2_S. rewrite (pow2_split l d) by assumption.
  pose proof (pow2_pos l).
  assert (i * (2 * 2 ^ l) + 2 * 2 ^ l <= 2 * (2 ^ l * 2 ^ (d - l))) by nia. lia.
Qed.

Lemma inTree_lt_iff d l i : inTree d l i <-> nd l i < 2 * 2 ^ d - 1.
Proof.
  split; [apply inTree_lt|]. intros H. unfold nd in H. rewrite pow2_S in H. pose proof (pow2_pos l).
  assert (Hl : l <= d).
  { apply N.nlt_ge. intros Hc. assert (2 ^ (d + 1) <= 2 ^ l) by (apply pow2_le; lia). rewrite pow2_S in *. lia. }
  split; auto. rewrite (pow2_split l d) in H by assumption. apply N.nle_gt. intros Hc. nia.
Qed.

Lemma inTree_32 d l i : d <= 31 -> inTree d l i -> nd l i < 2^32.
Proof.
  intros Hd H. apply inTree_lt in H. assert (2 ^ d <= 2 ^ 31) by (apply pow2_le; lia).
  change (2 ^ 31) with 2147483648 in *. rewrite pow2_32. lia.
Qed.

Lemma level_in d l i : d <= 31 -> inTree d l i -> level (nd l i) = l.
Proof. intros Hd H. apply level_nd. eapply inTree_32; eauto. Qed.

Lemma inTree_exists d x : x < 2 * 2 ^ d - 1 -> exists l i, x = nd l i /\ inTree d l i.
Proof. destruct (nd_exists x) as (l & i & ->). intros H. exists l, i. split; auto. now apply inTree_lt_iff. Qed.

(** ** children *)
Lemma lxor_sub x k : N.testbit x k = true -> N.lxor x (2 ^ k) = x - 2 ^ k.
Proof.
  intros H. assert (E : x = N.lxor x (2 ^ k) + 2 ^ k).
  { rewrite N.add_nocarry_lxor.
    - rewrite N.lxor_assoc, N.lxor_nilpotent, N.lxor_0_r. reflexivity.
    - apply N.bits_inj_0. intros m. rewrite N.land_spec, N.lxor_spec, N.pow2_bits_eqb.
      destruct (N.eqb_spec k m) as [->|]; [rewrite H; reflexivity|apply andb_false_r]. }
  lia.
Qed.

Lemma left_nd l i : nd (l + 1) i < 2^32 -> left (nd (l + 1) i) = Some (nd l (2 * i)).
Proof.
  intros H. unfold left. rewrite level_nd by assumption. pose proof (nd_lt_level _ _ H).
  destruct (N.eqb_spec (l + 1) 0); [lia|]. f_equal. replace (l + 1 - 1) with l by lia.
  rewrite N.shiftl_1_l, w32_small by (apply pow2_lt_32; lia).
  rewrite lxor_sub.
  - unfold nd. rewrite !pow2_S. lia.
  - rewrite nd_bit. destruct (N.ltb_spec l (l + 1)); [reflexivity|lia].
Qed.

Lemma right_nd l i : nd (l + 1) i < 2^32 - 1 -> right (nd (l + 1) i) = Some (nd l (2 * i + 1)).
Proof.
  intros H. unfold right. rewrite level_nd by lia. pose proof (nd_lt_level (l + 1) i ltac:(lia)).
  destruct (N.eqb_spec (l + 1) 0); [lia|]. f_equal. replace (l + 1 - 1) with l by lia.
  assert (Hl : l + 1 <= 31).
  { apply N.nlt_ge. intros Hc. assert (E : l + 1 = 32) by lia. rewrite E in H. unfold nd in H.
    assert (i * 2 ^ (32 + 1) + 2 ^ 32 - 1 < 2 ^ 32 - 1) by assumption. lia. }
  assert (E3 : N.shiftl 3 l = N.lxor (2 ^ l) (2 ^ (l + 1))).
  { rewrite N.shiftl_mul_pow2, pow2_S, <- N.add_nocarry_lxor; [lia|].
    rewrite <- pow2_S. apply N.bits_inj_0. intros m. rewrite N.land_spec, !N.pow2_bits_eqb.
    destruct (N.eqb_spec l m), (N.eqb_spec (l + 1) m); try reflexivity; lia. }
  rewrite w32_small.
  - rewrite E3, <- N.lxor_assoc. rewrite (lxor_sub (nd (l + 1) i) l) by (rewrite nd_bit; destruct (N.ltb_spec l (l + 1)); [reflexivity|lia]).
    assert (E4 : nd (l + 1) i - 2 ^ l = nd l (2 * i)) by (unfold nd; rewrite !pow2_S; lia). rewrite E4.
    rewrite <- N.add_nocarry_lxor.
    + unfold nd. rewrite !pow2_S. pose proof (pow2_pos l). lia.
    + apply N.bits_inj_0. intros m. rewrite N.land_spec, N.pow2_bits_eqb. destruct (N.eqb_spec (l + 1) m) as [<-|]; [|apply andb_false_r].
      rewrite nd_bit. destruct (N.ltb_spec (l + 1) l); [lia|]. destruct (N.eqb_spec (l + 1) l); [lia|].
      replace (l + 1 - l - 1) with 0 by lia. now rewrite N.testbit_even_0.
  - rewrite N.shiftl_mul_pow2. assert (2 ^ l <= 2 ^ 30) by (apply pow2_le; lia). change (2 ^ 30) with 1073741824 in *. rewrite pow2_32. lia.
Qed.

Lemma children_nd l i : nd (l + 1) i < 2^32 - 1 -> children (nd (l + 1) i) = Some (nd l (2 * i), nd l (2 * i + 1)).
Proof. intros H. unfold children. rewrite left_nd by lia. now rewrite right_nd. Qed.

Lemma children_leaf i : 2 * i < 2^32 -> children (nd 0 i) = None /\ left (nd 0 i) = None /\ right (nd 0 i) = None.
Proof.
  intros H. assert (E : level (nd 0 i) = 0) by (apply level_nd; rewrite nd_0; lia).
  unfold children, left, right. rewrite E. auto.
Qed.

(** ** parent *)
Lemma parent_nd d l i : d <= 31 -> inTree d l i -> l < d -> parent (2 ^ d) (nd l i) = Some (nd (l + 1) (i / 2)).
Proof.
  intros Hd Hin Hl. unfold parent. rewrite root_full by assumption.
  destruct (N.eqb_spec (nd l i) (nd d 0)) as [E|_]; [apply nd_inj in E; lia|].
  rewrite (level_in d) by assumption. cbv zeta. f_equal.
  rewrite land1, N.shiftr_spec, N.add_0_l, nd_bit by lia.
  destruct (N.ltb_spec (l + 1) l); [lia|]. destruct (N.eqb_spec (l + 1) l); [lia|]. replace (l + 1 - l - 1) with 0 by lia.
  rewrite N.shiftl_1_l, (w32_small (2 ^ l)) by (apply pow2_lt_32; lia).
  rewrite (w32_small (N.shiftl _ _)).
  2:{ rewrite N.shiftl_mul_pow2. assert (2 ^ (l + 1) <= 2 ^ 31) by (apply pow2_le; lia).
      change (2 ^ 31) with 2147483648 in *. rewrite pow2_32. destruct (N.testbit i 0); cbn [N.b2n]; lia. }
  apply N.bits_inj. intros m.
  rewrite N.lxor_spec, N.lor_spec, N.pow2_bits_eqb, !nd_bit, <- N.div2_div.
  rewrite N.shiftl_mul_pow2. replace (N.b2n (N.testbit i 0) * 2 ^ (l + 1)) with (if N.testbit i 0 then 2 ^ (l + 1) else 0)
    by (destruct (N.testbit i 0); cbn [N.b2n]; lia).
  replace (N.testbit (if N.testbit i 0 then 2 ^ (l + 1) else 0) m) with (N.testbit i 0 && (l + 1 =? m))
    by (destruct (N.testbit i 0); [now rewrite N.pow2_bits_eqb|now rewrite N.bits_0]).
  destruct (N.ltb_spec m l).
  - destruct (N.ltb_spec m (l + 1)); [|lia]. destruct (N.eqb_spec (l + 1) m); [lia|]. now rewrite andb_false_r.
  - destruct (N.eqb_spec m l) as [->|].
    + rewrite N.eqb_refl. destruct (N.ltb_spec l (l + 1)); [|lia]. destruct (N.eqb_spec (l + 1) l); [lia|]. now rewrite andb_false_r.
    + destruct (N.eqb_spec l m); [lia|]. rewrite orb_false_r.
      destruct (N.ltb_spec m (l + 1)); [lia|]. destruct (N.eqb_spec m (l + 1)) as [->|].
      * rewrite N.eqb_refl. replace (l + 1 - l - 1) with 0 by lia. rewrite andb_true_r. now destruct (N.testbit i 0).
      * destruct (N.eqb_spec (l + 1) m); [lia|]. rewrite andb_false_r, xorb_false_r.
        rewrite N.div2_spec, N.shiftr_spec by lia. f_equal. lia.
Qed.

Lemma parent_root d : d <= 31 -> parent (2 ^ d) (nd d 0) = None.
Proof. intros Hd. unfold parent. rewrite root_full by assumption. now rewrite N.eqb_refl. Qed.

Lemma inTree_parent d l i : inTree d l i -> l < d -> inTree d (l + 1) (i / 2).
Proof.
  intros [H1 H2] Hl. split; [lia|]. apply N.div_lt_upper_bound; [lia|].
  rewrite <- pow2_S. replace (d - (l + 1) + 1) with (d - l) by lia. assumption.
Qed.

Lemma inTree_child d l i b : inTree d (l + 1) i -> b < 2 -> inTree d l (2 * i + b).
Proof.
  intros [H1 H2] Hb. split; [lia|]. replace (d - l) with (d - (l + 1) + 1) by lia. rewrite pow2_S. lia.
Qed.

Lemma nd_parent_lt l i : (nd l i <? nd (l + 1) (i / 2)) = N.even i.
Proof.
  pose proof (N.div_mod i 2 ltac:(lia)) as E. rewrite <- N.bit0_mod in E.
  unfold nd. rewrite !pow2_S. pose proof (pow2_pos l).
  rewrite N.bit0_odd, <- N.negb_even in E.
  destruct (N.even i) eqn:Ev; cbn [negb N.b2n] in E.
  - apply N.ltb_lt. rewrite E at 1. nia.
  - apply N.ltb_ge. rewrite E at 2. nia.
Qed.

Lemma sibling_nd d l i : d <= 31 -> inTree d l i -> l < d -> sibling (2 ^ d) (nd l i) = Some (nd l (N.lxor i 1)).
Proof.
  intros Hd Hin Hl. unfold sibling. rewrite (parent_nd d) by assumption.
  pose proof (inTree_parent _ _ _ Hin Hl) as Hp.
  assert (Hlt : nd (l + 1) (i / 2) < 2 ^ 32 - 1).
  { apply inTree_lt in Hp. assert (2 ^ d <= 2 ^ 31) by (apply pow2_le; lia). change (2 ^ 31) with 2147483648 in *. rewrite pow2_32. lia. }
  rewrite nd_parent_lt. pose proof (N.div_mod i 2 ltac:(lia)) as E. rewrite <- N.bit0_mod, N.bit0_odd, <- N.negb_even in E.
  assert (Hx : N.lxor i 1 = if N.even i then 2 * (i / 2) + 1 else 2 * (i / 2)).
  { destruct (N.even i) eqn:Ev; cbn [negb N.b2n] in E.
    - rewrite <- N.add_nocarry_lxor; [lia|]. rewrite land1, N.bit0_odd, <- N.negb_even, Ev. reflexivity.
    - change 1 with (2 ^ 0) at 1. rewrite lxor_sub; [rewrite pow2_0; lia|]. rewrite N.bit0_odd, <- N.negb_even, Ev. reflexivity. }
  rewrite Hx. destruct (N.even i).
  - apply right_nd. assumption.
  - apply left_nd. lia.
Qed.

(** ** directPath, copath *)
Fixpoint ancestors (n : nat) (l i : N) : list N :=
  match n with
  | O => []
  | S m => nd (l + 1) (i / 2) :: ancestors m (l + 1) (i / 2)
  end.
Fixpoint copathOf (n : nat) (l i : N) : list N :=
  match n with
  | O => []
  | S m => nd l (N.lxor i 1) :: copathOf m (l + 1) (i / 2)
  end.

Lemma inTree_top d i : inTree d d i -> i = 0.
Proof. intros [_ H]. rewrite N.sub_diag, pow2_0 in H. lia. Qed.

Lemma directPathLoop_nd d : d <= 31 -> forall n l i fuel, inTree d l i -> N.of_nat n = d - l -> (n <= fuel)%nat ->
  directPathLoop fuel (2 ^ d) (nd l i) = Ok (ancestors n l i).
Proof.
  intros Hd. induction n as [|n IH]; intros l i fuel Hin Hn Hf.
  - assert (l = d) by (destruct Hin; lia). subst l. pose proof (inTree_top _ _ Hin). subst i.
    destruct fuel; cbn [directPathLoop]; now rewrite parent_root.
  - destruct fuel as [|fuel]; [lia|]. cbn [directPathLoop ancestors].
    assert (l < d) by lia. rewrite (parent_nd d) by assumption.
    rewrite IH; [reflexivity|now apply inTree_parent|lia|lia].
Qed.

Lemma directPath_nd d l i : d <= 31 -> inTree d l i ->
  directPath (2 ^ d) (nd l i) = Ok (ancestors (N.to_nat (d - l)) l i).
Proof. intros Hd Hin. apply directPathLoop_nd; auto; lia. Qed.

Lemma siblings_nd d : d <= 31 -> forall n l i, inTree d l i -> N.of_nat n = d - l ->
  siblings (2 ^ d) (removelast (nd l i :: ancestors n l i)) = Ok (copathOf n l i).
Proof.
  intros Hd. induction n as [|n IH]; intros l i Hin Hn.
  - reflexivity.
  - assert (l < d) by lia. cbn [ancestors copathOf].
    change (removelast (nd l i :: nd (l + 1) (i / 2) :: ancestors n (l + 1) (i / 2)))
      with (nd l i :: removelast (nd (l + 1) (i / 2) :: ancestors n (l + 1) (i / 2))).
    cbn [siblings]. rewrite (sibling_nd d) by assumption. rewrite IH; [reflexivity|now apply inTree_parent|lia].
Qed.

Lemma copath_nd d l i : d <= 31 -> inTree d l i ->
  copath (2 ^ d) (nd l i) = Ok (copathOf (N.to_nat (d - l)) l i).
Proof.
  intros Hd Hin. unfold copath. rewrite directPath_nd by assumption. cbn [rbind].
  remember (N.to_nat (d - l)) as n. destruct n as [|n].
  - reflexivity.
  - cbn [ancestors]. change (nd (l + 1) (i / 2) :: ancestors n (l + 1) (i / 2)) with (ancestors (S n) l i).
    apply (siblings_nd d); auto. lia.
Qed.
