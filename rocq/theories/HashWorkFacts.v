(** Lemmas about HashWork.v. *)
From Verif Require Import MemoryFacts.
From Verif Require Export HashWork IntegrityFacts JoinFacts.

Lemma fst_bind {A B} (m : counted A) (k : A -> counted B) : fst (c_bind m k) = rbind (fst m) (fun x => fst (k x)).
Proof. unfold c_bind. destruct (fst m); reflexivity. Qed.
Lemma snd_bind {A B} (m : counted A) (k : A -> counted B) a b : snd m <= a -> (forall x, fst m = Ok x -> snd (k x) <= b) -> snd (c_bind m k) <= a + b.
Proof. intros H1 H2. unfold c_bind. destruct (fst m) as [x|?|?|] eqn:E; cbn [snd]; try lia. specialize (H2 x eq_refl). lia. Qed.
Lemma rbind_ext {A B} (m m' : res A) (k k' : A -> res B) : m = m' -> (forall x, k x = k' x) -> rbind m k = rbind m' k'.
Proof. intros -> H. destruct m'; cbn [rbind]; auto. Qed.
Ltac erase := repeat (rewrite fst_bind; apply rbind_ext; [try reflexivity|intros ?]).

(** ** A sum over the nodes *)
Definition weight (x : N) : N := if level x =? 0 then 0 else 2 ^ (level x + 1).
Definition total (xs : list N) : N := fold_right (fun x s => weight x + s) 0 xs.
Lemma total_app xs ys : total (xs ++ ys) = total xs + total ys.
Proof. induction xs as [|x xs IH]; cbn [app total fold_right]; [reflexivity|]. fold (total (xs ++ ys)) (total xs). lia. Qed.

Lemma upto_succ n : upto (n + 1) = upto n ++ [n].
Proof. unfold upto. replace (N.to_nat (n + 1)) with (S (N.to_nat n)) by lia. rewrite seq_S, map_app. cbn [map]. f_equal. f_equal. lia. Qed.
Lemma upto_add a b : upto (a + b) = upto a ++ map (fun x => a + x) (upto b).
Proof.
  induction b using N.peano_ind; [rewrite N.add_0_r; cbn; now rewrite app_nil_r|].
  rewrite <- N.add_1_r, N.add_assoc, !upto_succ, IHb, map_app, <- app_assoc. reflexivity.
Qed.
Lemma total_shift a xs : (forall x, In x xs -> level (a + x) = level x) -> total (map (fun x => a + x) xs) = total xs.
Proof.
  induction xs as [|x xs IH]; intros H; [reflexivity|]. cbn [map total fold_right]. fold (total (map (fun x => a + x) xs)) (total xs).
  rewrite IH by (intros; apply H; now right). unfold weight. now rewrite H by now left.
Qed.
Lemma level_shift (k : nat) x : (k < 31)%nat -> x < 2 * 2 ^ N.of_nat k - 1 -> level (2 * 2 ^ N.of_nat k + x) = level x.
Proof.
  intros Hk H. destruct (inTree_exists _ _ H) as (l & i & -> & I). pose proof I as [Hl Hi].
  assert (E : 2 * 2 ^ N.of_nat k + nd l i = nd l (i + 2 ^ (N.of_nat k - l))).
  { unfold nd. rewrite N.mul_add_distr_r, <- N.pow_add_r. replace (N.of_nat k - l + (l + 1)) with (N.of_nat k + 1) by lia. rewrite !pow2_S. pose proof (pow2_pos l). lia. }
  assert (2 ^ N.of_nat k <= 2 ^ 30) by (apply pow2_le; lia). change (2 ^ 30) with 1073741824 in *.
  rewrite E, !level_nd; [reflexivity| |rewrite <- E]; rewrite pow2_32; lia.
Qed.
Lemma total_nodes (k : nat) : (k <= 31)%nat -> total (upto (2 * 2 ^ N.of_nat k - 1)) = N.of_nat k * 2 ^ (N.of_nat k + 1).
Proof.
  induction k as [|k IH]; intros Hk; [reflexivity|].
  rewrite Nat2N.inj_succ, <- N.add_1_r. set (d := N.of_nat k) in *. rewrite !pow2_S. pose proof (pow2_pos d).
  replace (2 * (2 * 2 ^ d) - 1) with (2 * 2 ^ d - 1 + 1 + (2 * 2 ^ d - 1)) by lia. rewrite upto_add, upto_succ, !total_app.
  rewrite total_shift. 2: { intros x Hx. apply upto_In in Hx. replace (2 * 2 ^ d - 1 + 1) with (2 * 2 ^ d) by lia. apply level_shift; [lia|exact Hx]. }
  rewrite IH by lia. rewrite pow2_S. cbn [total fold_right].
  replace (2 * 2 ^ d - 1) with (nd (d + 1) 0) by (unfold nd; rewrite !pow2_S; lia).
  unfold weight. rewrite level_nd.
  - destruct (N.eqb_spec (d + 1) 0); [lia|]. rewrite !pow2_S. lia.
  - assert (2 ^ d <= 2 ^ 30) by (apply pow2_le; lia). change (2 ^ 30) with 1073741824 in *. unfold nd. rewrite !pow2_S, pow2_32. lia.
Qed.

Section WithCrypto.
Context {C : crypto}.
Lemma erase_hash fuel cs t ex : forall x, fst (countTreeHashLoop fuel cs t ex x) = treeHashLoop fuel cs t ex x.
Proof.
  induction fuel as [|f IH]; intros x; cbn [countTreeHashLoop treeHashLoop]; erase.
  - destruct (leafIndexOf x); [erase; reflexivity|]. destruct (children x) as [[l r]|]; reflexivity.
  - destruct (leafIndexOf x); [erase; reflexivity|]. destruct (children x) as [[l r]|]; [|reflexivity]. erase; try apply IH. reflexivity.
Qed.
Lemma erase_at cs t l r p : fst (countParentHashAt cs t l r p) = verifyParentHashAt cs t l r p.
Proof. unfold countParentHashAt, verifyParentHashAt. cbv zeta. erase; try apply erase_hash; reflexivity. Qed.
Lemma erase_parents cs t : forall xs, fst (countParentHashesFrom cs t xs) = verifyParentHashesFrom cs t xs.
Proof.
  induction xs as [|x xs IH]; [reflexivity|]. cbn [countParentHashesFrom verifyParentHashesFrom]. erase. destruct x0 as [n|]; [|exact IH].
  destruct (children x) as [[l r]|]; [|exact IH]. destruct n as [?|p]; [reflexivity|]. rewrite fst_bind. apply rbind_ext.
  - cbn [fst]. now rewrite erase_at.
  - intros [|]; [exact IH|reflexivity].
Qed.
Lemma erase_leaves t ctx creds now : forall lis s e, fst (countLeaves t ctx creds now lis s e) = verifyLeaves t ctx creds now lis s e.
Proof.
  induction lis as [|li lis IH]; intros s e; [reflexivity|]. cbn [countLeaves verifyLeaves]. erase. destruct x as [l|]; [|apply IH]. erase. apply IH.
Qed.
Theorem erase_integrity t ctx now : fst (countIntegrity t ctx now) = verifyIntegrity t ctx now.
Proof.
  unfold countIntegrity, verifyIntegrity. cbv zeta. erase.
  - apply erase_hash.
  - apply erase_parents.
  - apply erase_leaves.
  - reflexivity.
Qed.

Lemma hash_work fuel cs t ex : forall l i, (i + 1) * 2 ^ (l + 1) <= 2 ^ 32 -> snd (countTreeHashLoop fuel cs t ex (nd l i)) <= 2 ^ (l + 1) - 1.
Proof.
  induction fuel as [|f IH]; intros l i H; cbn [countTreeHashLoop]; (pose proof (pow2_pos (l + 1)); pose proof (pow2_S l); pose proof (pow2_pos l));
    (replace (2 ^ (l + 1) - 1) with (0 + (2 ^ (l + 1) - 1)) by lia; apply snd_bind; [cbn [costs snd]; lia|]; intros n _; destruct (leafIndexOf (nd l i)) as [li|] eqn:El;
     [replace (2 ^ (l + 1) - 1) with (0 + (0 + (2 ^ (l + 1) - 1))) by lia; apply snd_bind; [cbn [costs snd]; lia|]; intros ? _; apply snd_bind; [cbn [costs snd]; lia|]; intros ? _; cbn [costs snd]; lia|]).
  - destruct (children (nd l i)) as [[? ?]|]; cbn [costs snd]; lia.
  - destruct (children (nd l i)) as [[a b]|] eqn:Ec; [|cbn [costs snd]; lia].
    assert (B : nd l i < 2 ^ 32 - 1) by (unfold nd; lia).
    destruct (N.eq_dec l 0) as [->|Hl]. { rewrite nd_0 in *. pose proof (children_leaf i ltac:(lia)) as [E _]. rewrite nd_0 in E. congruence. }
    destruct (N.le_exists_sub 1 l ltac:(lia)) as (m & -> & _). rewrite children_nd in Ec by exact B. injection Ec as <- <-.
    pose proof (pow2_S m). pose proof (pow2_pos m).
    assert (Hl1 : snd (countTreeHashLoop f cs t ex (nd m (2 * i))) <= 2 ^ (m + 1) - 1) by (apply IH; nia).
    assert (Hl2 : snd (countTreeHashLoop f cs t ex (nd m (2 * i + 1))) <= 2 ^ (m + 1) - 1) by (apply IH; nia).
    replace (2 ^ (m + 1 + 1) - 1) with (2 ^ (m + 1) - 1 + (2 ^ (m + 1) - 1 + (0 + (0 + 1)))) by lia.
    apply snd_bind; [exact Hl1|]. intros ? _. apply snd_bind; [exact Hl2|]. intros ? _. apply snd_bind; [cbn [costs snd]; lia|]. intros ? _.
    apply snd_bind; [cbn [costs snd]; lia|]. intros ? _. cbn [costs snd]. lia.
Qed.
Lemma at_work cs t p l i : (i + 1) * 2 ^ (l + 1 + 1) <= 2 ^ 32 -> snd (countParentHashAt cs t (nd l (2 * i)) (nd l (2 * i + 1)) p) <= 2 ^ (l + 1 + 1).
Proof.
  intros H. unfold countParentHashAt. cbv zeta. pose proof (pow2_S (l + 1)). pose proof (pow2_S l). pose proof (pow2_pos l).
  assert (Hl1 : snd (countTreeHash cs t (nd l (2 * i)) (pn_unmergedLeaves p)) <= 2 ^ (l + 1) - 1) by (apply hash_work; nia).
  assert (Hl2 : snd (countTreeHash cs t (nd l (2 * i + 1)) (pn_unmergedLeaves p)) <= 2 ^ (l + 1) - 1) by (apply hash_work; nia).
  replace (2 ^ (l + 1 + 1)) with (2 ^ (l + 1) - 1 + (2 ^ (l + 1) - 1 + (1 + (1 + (0 + (0 + (0 + (0 + 0)))))))) by lia.
  apply snd_bind; [exact Hl1|]. intros ? _. apply snd_bind; [exact Hl2|]. intros ? _.
  repeat (apply snd_bind; [cbn [costs snd]; lia|]; intros ? _). cbn [costs snd]. lia.
Qed.
Lemma node_work cs t (k : nat) x a b p : (k <= 31)%nat -> x < 2 * 2 ^ N.of_nat k - 1 -> children x = Some (a, b) -> snd (countParentHashAt cs t a b p) <= weight x.
Proof.
  intros Hk H Ec. destruct (inTree_exists _ _ H) as (l & i & -> & I). pose proof I as [Hl Hi].
  assert (Lv : level (nd l i) = l) by (apply (level_in (N.of_nat k)); [lia|exact I]).
  assert (R : (i + 1) * 2 ^ (l + 1) <= 2 ^ 32).
  { apply N.le_trans with (2 ^ (N.of_nat k - l) * 2 ^ (l + 1)); [apply N.mul_le_mono_r; lia|]. rewrite <- N.pow_add_r. apply pow2_le. lia. }
  assert (B : nd l i < 2 ^ 32 - 1) by (unfold nd; pose proof (pow2_S l); pose proof (pow2_pos l); lia).
  destruct (N.eq_dec l 0) as [->|Hn]. { pose proof (children_leaf i ltac:(rewrite nd_0 in B; lia)) as [E _]. congruence. }
  destruct (N.le_exists_sub 1 l ltac:(lia)) as (m & -> & _). rewrite children_nd in Ec by exact B. injection Ec as <- <-.
  unfold weight. rewrite Lv. destruct (N.eqb_spec (m + 1) 0); [lia|]. apply at_work, R.
Qed.
Lemma parents_work cs t (k : nat) : (k <= 31)%nat -> forall xs, (forall x, In x xs -> x < 2 * 2 ^ N.of_nat k - 1) -> snd (countParentHashesFrom cs t xs) <= total xs.
Proof.
  intros Hk. induction xs as [|x xs IH]; intros H; [apply N.le_refl|]. change (total (x :: xs)) with (weight x + total xs).
  specialize (IH (fun y Hy => H y (or_intror Hy))). specialize (H x (or_introl eq_refl)).
  cbn [countParentHashesFrom].
  replace (weight x + total xs) with (0 + (weight x + total xs)) by lia. apply snd_bind; [apply N.le_refl|]. intros n _.
  destruct n as [n|]; [|lia]. destruct (children x) as [[a b]|] eqn:Ec; [|lia]. destruct n as [?|p]; [apply N.le_0_l|].
  pose proof (node_work cs t k x a b p Hk H Ec) as W1. revert W1. generalize (countParentHashAt cs t a b p). intros c W1. apply snd_bind.
  - exact W1.
  - intros [|] _; [exact IH|apply N.le_0_l].
Qed.
Lemma leaves_work t ctx creds now : forall lis s e, snd (countLeaves t ctx creds now lis s e) <= lenN lis.
Proof.
  induction lis as [|li lis IH]; intros s e; [cbn; lia|]. cbn [countLeaves]. assert (El : lenN (li :: lis) = 1 + lenN lis) by (unfold lenN; cbn [length]; lia). rewrite El. replace (1 + lenN lis) with (0 + (1 + lenN lis)) by lia.
  apply snd_bind; [cbn [costs snd]; lia|]. intros [l|] _; [|specialize (IH s e); lia]. apply snd_bind; [cbn [costs snd]; lia|]. intros ? _. apply IH.
Qed.
Theorem integrity_work k t ctx now : full k t -> snd (countIntegrity t ctx now) <= N.of_nat (k + 2) * (lenN t + 1).
Proof.
  intros F. pose proof F as [Hk Hn]. unfold fits in Hk. pose proof (numLeaves_tree _ _ Hk Hn) as Hl. unfold leaf_count in Hl.
  assert (En : lenN t = 2 * 2 ^ N.of_nat k - 1). { rewrite Hn. unfold node_count. rewrite Nat2N.inj_succ, <- N.add_1_r, pow2_S. reflexivity. }
  unfold countIntegrity. cbv zeta. pose proof (pow2_pos (N.of_nat k)). pose proof (pow2_S (N.of_nat k)).
  apply N.le_trans with (2 ^ (N.of_nat k + 1) - 1 + (0 + (N.of_nat k * 2 ^ (N.of_nat k + 1) + (0 + (0 + (2 ^ N.of_nat k + 0)))))); [|rewrite En; lia].
  apply snd_bind. { unfold countRootTreeHash. rewrite Hl, root_full by lia. apply hash_work. rewrite N.mul_1_l. apply pow2_le. lia. }
  intros h _. apply snd_bind; [cbn [costs snd]; lia|]. intros _ _. apply snd_bind.
  { unfold countParentHashes. rewrite <- total_nodes by exact Hk. rewrite En. apply (parents_work _ _ k Hk). intros x Hx. now apply upto_In in Hx. }
  intros ph _. apply snd_bind; [cbn [costs snd]; lia|]. intros _ _. apply snd_bind; [cbn [costs snd]; lia|]. intros creds _. apply snd_bind.
  - pose proof (leaves_work t ctx creds now (upto (numLeaves t)) [] []) as W1. rewrite lenN_upto, Hl in W1. rewrite Hl. exact W1.
  - intros keys _. cbn [costs snd]. lia.
Qed.
Theorem received_work raw t ctx now : unmarshal getRatchetTree raw = Ok t ->
  lenN t <= 2 * lenN raw /\ snd (countIntegrity t ctx now) <= (N.log2 (lenN t + 1) + 1) * (lenN t + 1).
Proof.
  intros H. split; [exact (proj2 (tree_memory _ _ H))|]. destruct t as [|o t']; [vm_compute; discriminate|]. set (t := o :: t') in *.
  destruct (decoded_tree _ _ H ltac:(discriminate)) as [(k & F) _]. pose proof (integrity_work k t ctx now F) as B. destruct F as [_ En].
  assert (E : lenN t + 1 = 2 ^ (N.of_nat k + 1)). { rewrite En. unfold node_count. rewrite Nat2N.inj_succ, <- N.add_1_r. pose proof (pow2_pos (N.of_nat k + 1)). lia. }
  assert (L : N.log2 (lenN t + 1) = N.of_nat k + 1) by (rewrite E; apply N.log2_pow2; lia). rewrite L.
  replace (N.of_nat k + 1 + 1) with (N.of_nat (k + 2)) by lia. exact B.
Qed.
End WithCrypto.
