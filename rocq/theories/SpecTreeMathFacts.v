(** Proofs of the statements in PropsTreeMath.v. *)
From Verif Require Import TreePathFacts.

Lemma snoc_cases (p : path) : p = [] \/ exists q b, p = q ++ [b].
Proof. destruct p as [|b p _] using rev_ind; eauto. Qed.

Lemma raw_family k x : fits k -> x < node_count k -> x <> root (leaf_count k) ->
  exists p s, parent (leaf_count k) x = Some p /\ sibling (leaf_count k) x = Some s /\ p < node_count k /\ s < node_count k /\
    ((children p = Some (x, s) /\ left p = Some x /\ x < p /\ p < s) \/ (children p = Some (s, x) /\ right p = Some x /\ s < p /\ p < x)).
Proof.
  intros Hk Hx Hr. destruct (number_onto k x Hx) as (w & Hw & <-).
  destruct (snoc_cases w) as [->|(q & b & ->)]; [rewrite path_root in Hr by assumption; contradiction|].
  apply in_tree_snoc in Hw. exists (number k q), (number k (q ++ [negb b])).
  rewrite path_parent, path_sibling by assumption. destruct (path_order k q Hw).
  splits; auto; try (apply number_lt; unfold in_tree; lia); try (apply number_lt; now apply in_tree_snoc).
  destruct b; cbn [negb]; [right|left]; rewrite path_children by assumption; [rewrite path_right|rewrite path_left]; auto.
Qed.

Lemma raw_children k x a b : fits k -> x < node_count k -> children x = Some (a, b) ->
  a < x < b /\ b < node_count k /\
  parent (leaf_count k) a = Some x /\ parent (leaf_count k) b = Some x.
Proof.
  intros Hk Hx. destruct (number_onto k x Hx) as (w & Hw & <-).
  unfold in_tree in Hw. destruct (Nat.eq_dec (length w) k) as [E|E].
  - destruct (path_leaf k Hk w E) as (-> & _). discriminate.
  - assert (Hl : (length w < k)%nat) by lia. rewrite path_children by assumption. intros [= <- <-].
    rewrite !path_parent by assumption. splits; auto; try apply path_order; auto. apply number_lt. now apply in_tree_snoc.
Qed.

Lemma raw_leaf k x : fits k -> x < node_count k -> (children x = None <-> isLeaf x = true) /\ (isLeaf x = true <-> exists i, i < leaf_count k /\ x = 2 * i).
Proof.
  intros Hk Hx. destruct (number_onto k x Hx) as (w & Hw & E). split.
  - subst x. rewrite path_isLeaf by assumption. unfold in_tree in Hw. destruct (Nat.eqb_spec (length w) k).
    + split; auto. intros _. now apply path_leaf.
    + rewrite path_children by (try assumption; lia). split; discriminate.
  - unfold isLeaf. rewrite N.eqb_eq. split.
    + intros H0. exists (x / 2). pose proof (N.div_mod x 2 ltac:(lia)). split; [|lia].
      rewrite node_count_eq in Hx. unfold leaf_count. lia.
    + intros (i & _ & ->). rewrite N.mul_comm. apply N.mod_mul. lia.
Qed.

Lemma raw_root k : fits k -> root (leaf_count k) < node_count k /\ parent (leaf_count k) (root (leaf_count k)) = None.
Proof.
  intros Hk. rewrite path_root by assumption. split; [apply number_lt; unfold in_tree; cbn; lia|now apply path_parent_root].
Qed.

Lemma family_paths k p b : fits k -> (length p < k)%nat ->
  parent (leaf_count k) (number k (p ++ [b])) = Some (number k p) /\
  sibling (leaf_count k) (number k (p ++ [b])) = Some (number k (p ++ [negb b])) /\
  children (number k p) = Some (number k (p ++ [false]), number k (p ++ [true])) /\
  left (number k p) = Some (number k (p ++ [false])) /\ right (number k p) = Some (number k (p ++ [true])).
Proof. intros. rewrite path_parent, path_sibling, path_children, path_left, path_right by assumption. auto. Qed.

Lemma sizes k : fits k ->
  width (leaf_count k) = node_count k /\ numLeavesFromWidth (node_count k) = leaf_count k /\
  root (leaf_count k) = number k [].
Proof.
  intros Hk. rewrite path_root by assumption. rewrite node_count_eq. unfold leaf_count. rewrite numLeaves_full. splits; auto.
  unfold width. pose proof (pow2_pos (N.of_nat k)). destruct (N.eqb_spec (2 ^ N.of_nat k) 0); [lia|].
  assert (2 ^ N.of_nat k <= 2 ^ 31) by (apply pow2_le; now apply fitsN). change (2 ^ 31) with 2147483648 in *.
  rewrite w32_small; [lia|]. rewrite pow2_32. lia.
Qed.

Lemma numbering k : fits k ->
  (forall x, x < node_count k -> exists p, in_tree k p /\ number k p = x) /\
  (forall p, in_tree k p -> number k p < node_count k) /\
  (forall p q, in_tree k p -> in_tree k q -> number k p = number k q -> p = q).
Proof. intros _. splits; intros; [now apply number_onto|now apply number_lt|eapply number_inj; eauto]. Qed.

Lemma proper_ancestors_spec p a : In a (proper_ancestors p) <-> ancestor_or_self a p /\ a <> p.
Proof.
  unfold ancestor_or_self. induction p as [|b p IH] using rev_ind; cbn.
  - split; [tauto|]. intros [(s & E) N]. symmetry in E. apply app_eq_nil in E. destruct E; congruence.
  - rewrite proper_ancestors_snoc. cbn [In]. rewrite IH. split.
    + intros [<-|[(s & ->) Hn]].
      * split; [now exists [b]|]. intros E. apply (f_equal (@length bool)) in E. rewrite app_length in E. cbn in E. lia.
      * split; [exists (s ++ [b]); now rewrite app_assoc|].
        intros E. apply (f_equal (@length bool)) in E. rewrite !app_length in E. cbn in E. lia.
    + intros [(s & E) Hn]. destruct (snoc_cases s) as [->|(s' & c & ->)].
      * rewrite app_nil_r in E. congruence.
      * rewrite app_assoc in E. apply app_inj_tail in E. destruct E as [-> <-].
        destruct s' as [|c' s']; [rewrite app_nil_r; auto|]. right. split; [eauto|].
        intros E. apply (f_equal (@length bool)) in E. rewrite app_length in E. cbn in E. lia.
Qed.

(** A list of the proper ancestors whose lengths decrease by one is unique. *)
Lemma proper_ancestors_sorted p n a : nth_error (proper_ancestors p) n = Some a -> length a = (length p - 1 - n)%nat /\ (n < length p)%nat.
Proof.
  revert n. induction p as [|b p IH] using rev_ind; intros n; cbn.
  - destruct n; discriminate.
  - rewrite proper_ancestors_snoc, app_length. cbn [length]. destruct n as [|n]; cbn [nth_error].
    + intros [= <-]. lia.
    + intros H. apply IH in H. lia.
Qed.

Lemma directPath_walk k p : fits k -> in_tree k p ->
  directPath (leaf_count k) (number k p) = Ok (map (number k) (proper_ancestors p)).
Proof. intros. now apply path_directPath. Qed.

Lemma copath_walk k p : fits k -> in_tree k p ->
  copath (leaf_count k) (number k p) = Ok (map (number k) (siblings_up p)).
Proof. intros. now apply path_copath. Qed.

Lemma siblings_up_spec p : siblings_up p =
  map (fun a => removelast a ++ [negb (List.last a false)]) (removelast (p :: proper_ancestors p)).
Proof.
  induction p as [|b p IH] using rev_ind; [reflexivity|].
  rewrite siblings_up_snoc, proper_ancestors_snoc, IH.
  change (removelast ((p ++ [b]) :: p :: proper_ancestors p)) with ((p ++ [b]) :: removelast (p :: proper_ancestors p)).
  cbn [map]. rewrite removelast_last, last_last. reflexivity.
Qed.

Lemma copath_of_path k x : fits k -> x < node_count k -> x <> root (leaf_count k) ->
  exists dp cp, directPath (leaf_count k) x = Ok dp /\ copath (leaf_count k) x = Ok cp /\
    length cp = length dp /\
    (forall n y, nth_error (x :: dp) n = Some y -> nth_error cp n = sibling (leaf_count k) y).
Proof.
  intros Hk Hx Hr. destruct (number_onto k x Hx) as (p & Hp & <-).
  exists (map (number k) (proper_ancestors p)), (map (number k) (siblings_up p)).
  rewrite path_directPath, path_copath by assumption. splits; auto.
  - rewrite !map_length. clear. induction p as [|b p IH] using rev_ind; [reflexivity|].
    rewrite proper_ancestors_snoc, siblings_up_snoc. cbn. now rewrite IH.
  - clear Hx Hr. induction p as [|b p IH] using rev_ind; intros n y; cbn [proper_ancestors siblings_up map].
    + destruct n as [|[|n]]; cbn; try discriminate. intros [= <-]. now rewrite path_sibling_root.
    + rewrite proper_ancestors_snoc, siblings_up_snoc. apply in_tree_snoc in Hp. destruct n as [|n]; cbn [nth_error map].
      * intros [= <-]. now rewrite path_sibling.
      * apply IH. unfold in_tree. lia.
Qed.

Lemma commonAncestor_lowest k p q : fits k -> in_tree k p -> in_tree k q ->
  exists r, in_tree k r /\ commonAncestor (number k p) (number k q) = number k r /\
            ancestor_or_self r p /\ ancestor_or_self r q /\
            (forall a, ancestor_or_self a p -> ancestor_or_self a q -> ancestor_or_self a r).
Proof.
  intros Hk Hp Hq. destruct (path_commonAncestor k Hk p q Hp Hq) as (r & E & H1 & H2 & H3).
  exists r. splits; auto. destruct H1 as (s & ->). unfold in_tree in *. rewrite app_length in Hp. lia.
Qed.
