(** Properties C09-C11: tree arithmetic. *)
From Verif Require Import TreePathFacts SpecTreeMathFacts.

(** ** C09 *)
(** The numbering of SpecTreeMath is one: numbers and paths correspond. *)
Theorem C09_numbering_is_a_bijection :
  forall k, fits k ->
  (forall x, x < node_count k -> exists p, in_tree k p /\ number k p = x) /\
  (forall p, in_tree k p -> number k p < node_count k) /\
  (forall p q, in_tree k p -> in_tree k q -> number k p = number k q -> p = q).
Proof. exact numbering. Qed.
Print Assumptions C09_numbering_is_a_bijection.

Theorem C09_sizes_and_root :
  forall k, fits k ->
  width (leaf_count k) = node_count k /\ numLeavesFromWidth (node_count k) = leaf_count k /\
  root (leaf_count k) = number k [].
Proof. exact sizes. Qed.
Print Assumptions C09_sizes_and_root.

(** The functions follow the paths. *)
Theorem C09_parent_children_sibling_follow_paths :
  forall k p b, fits k -> (length p < k)%nat ->
  parent (leaf_count k) (number k (p ++ [b])) = Some (number k p) /\
  sibling (leaf_count k) (number k (p ++ [b])) = Some (number k (p ++ [negb b])) /\
  children (number k p) = Some (number k (p ++ [false]), number k (p ++ [true])) /\
  left (number k p) = Some (number k (p ++ [false])) /\ right (number k p) = Some (number k (p ++ [true])).
Proof. exact family_paths. Qed.
Print Assumptions C09_parent_children_sibling_follow_paths.

(** The same, as stated in the property list. *)
Theorem C09_parent_of_non_root_has_node_and_sibling_as_children :
  forall k x, fits k -> x < node_count k -> x <> root (leaf_count k) ->
  exists p s, parent (leaf_count k) x = Some p /\ sibling (leaf_count k) x = Some s /\ p < node_count k /\ s < node_count k /\
    ((children p = Some (x, s) /\ left p = Some x /\ x < p /\ p < s) \/
     (children p = Some (s, x) /\ right p = Some x /\ s < p /\ p < x)).
Proof. exact raw_family. Qed.
Print Assumptions C09_parent_of_non_root_has_node_and_sibling_as_children.

Theorem C09_children_have_the_node_as_parent :
  forall k x a b, fits k -> x < node_count k -> children x = Some (a, b) ->
  a < x < b /\ b < node_count k /\
  parent (leaf_count k) a = Some x /\ parent (leaf_count k) b = Some x.
Proof. exact raw_children. Qed.
Print Assumptions C09_children_have_the_node_as_parent.

Theorem C09_leaves_have_no_children :
  forall k x, fits k -> x < node_count k ->
  (children x = None <-> isLeaf x = true) /\
  (isLeaf x = true <-> exists i, i < leaf_count k /\ x = 2 * i).
Proof. exact raw_leaf. Qed.
Print Assumptions C09_leaves_have_no_children.

Theorem C09_root_has_no_parent :
  forall k, fits k -> root (leaf_count k) < node_count k /\ parent (leaf_count k) (root (leaf_count k)) = None.
Proof. exact raw_root. Qed.
Print Assumptions C09_root_has_no_parent.

Example C09_example :
  fits 3 /\ leaf_count 3 = 8 /\ number 3 [true; false] = 9 /\ parent 8 9 = Some 11 /\ sibling 8 9 = Some 13 /\
  children 11 = Some (9, 13) /\ root 8 = 7.
Proof. split; [unfold fits; lia|]. repeat split; reflexivity. Qed.

(** ** C10 *)
Theorem C10_direct_path_lists_the_proper_ancestors :
  forall k p, fits k -> in_tree k p ->
  directPath (leaf_count k) (number k p) = Ok (map (number k) (proper_ancestors p)).
Proof. exact directPath_walk. Qed.
Print Assumptions C10_direct_path_lists_the_proper_ancestors.

(** [proper_ancestors] lists what its name says: every ancestor but the node,
    nearest first. *)
Theorem C10_proper_ancestors_members :
  forall p a, In a (proper_ancestors p) <-> ancestor_or_self a p /\ a <> p.
Proof. exact proper_ancestors_spec. Qed.
Print Assumptions C10_proper_ancestors_members.

Theorem C10_proper_ancestors_order :
  forall p n a, nth_error (proper_ancestors p) n = Some a -> length a = (length p - 1 - n)%nat /\ (n < length p)%nat.
Proof. exact proper_ancestors_sorted. Qed.
Print Assumptions C10_proper_ancestors_order.

Theorem C10_copath_lists_the_siblings :
  forall k p, fits k -> in_tree k p ->
  copath (leaf_count k) (number k p) = Ok (map (number k) (siblings_up p)).
Proof. exact copath_walk. Qed.
Print Assumptions C10_copath_lists_the_siblings.

Theorem C10_copath_follows_direct_path :
  forall k x, fits k -> x < node_count k -> x <> root (leaf_count k) ->
  exists dp cp, directPath (leaf_count k) x = Ok dp /\ copath (leaf_count k) x = Ok cp /\
    length cp = length dp /\
    (forall n y, nth_error (x :: dp) n = Some y -> nth_error cp n = sibling (leaf_count k) y).
Proof. exact copath_of_path. Qed.
Print Assumptions C10_copath_follows_direct_path.

Example C10_example :
  in_tree 3 [true; false; true] /\ number 3 [true; false; true] = 10 /\
  directPath 8 10 = Ok [9; 11; 7] /\ copath 8 10 = Ok [8; 13; 3].
Proof. split; [unfold in_tree; cbn; lia|]. repeat split; reflexivity. Qed.

(** ** C11 *)
Theorem C11_common_ancestor_is_the_lowest :
  forall k p q, fits k -> in_tree k p -> in_tree k q ->
  exists r, in_tree k r /\ commonAncestor (number k p) (number k q) = number k r /\
            ancestor_or_self r p /\ ancestor_or_self r q /\
            (forall a, ancestor_or_self a p -> ancestor_or_self a q -> ancestor_or_self a r).
Proof. exact commonAncestor_lowest. Qed.
Print Assumptions C11_common_ancestor_is_the_lowest.

Example C11_example : commonAncestor 8 13 = 11 /\ commonAncestor 0 14 = 7 /\ commonAncestor 8 9 = 9 /\ commonAncestor 5 4 = 5.
Proof. repeat split; reflexivity. Qed.
