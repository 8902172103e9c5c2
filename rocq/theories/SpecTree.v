(** Specification of ratchet trees and of their operations, by paths from the
    root (see SpecTreeMath.v). *)
From Coq Require Export Sorted.
From Verif Require Export SpecTreeMath Tree.

Section AnyTree.
Context {A : Type}.

(** [t] is an array with a place for every node of a tree of height [k]. *)
Definition full (k : nat) (t : list (option A)) : Prop := fits k /\ lenN t = node_count k.

(** The node at the end of a path, if it is not blank *)
Definition at_path (k : nat) (t : list (option A)) (p : path) : option A :=
  match nth_error t (N.to_nat (number k p)) with Some o => o | None => None end.
End AnyTree.

(** The path to the leaf number [li] of a tree of height [k]: the bits of [li],
    most significant first *)
Fixpoint leafPath (k : nat) (li : N) : path :=
  match k with
  | O => []
  | S k' => N.testbit li (N.of_nat k') :: leafPath k' li
  end.

(** Leaf nodes are at the end of paths of full length, parent nodes above. *)
Definition placed (k : nat) (p : path) (n : node) : Prop :=
  match n with NLeaf _ => length p = k | NParent _ => (length p < k)%nat end.
Definition shaped (k : nat) (t : ratchetTree) : Prop :=
  full k t /\ forall p n, in_tree k p -> at_path k t p = Some n -> placed k p n.

(** A well-shaped tree, or no tree at all *)
Definition well_shaped (t : ratchetTree) : Prop := t = [] \/ exists k, shaped k t.

(** The member at a leaf *)
Definition leaf_at (t : ratchetTree) (li : N) : option leafNode :=
  match nth_error t (N.to_nat (2 * li)) with Some (Some (NLeaf l)) => Some l | _ => None end.

(** [a] is above [p]. *)
Definition above (a p : path) : Prop := exists b s, p = a ++ b :: s.

(** The leaf that a 32-bit leaf index designates: doubling wraps around. *)
Definition designated (li : N) : N := li mod 2 ^ 31.

(** ** Adding *)
(** [li] is the leftmost leaf without member. *)
Definition leftmost_free (t : ratchetTree) (li : N) : Prop :=
  leaf_at t li = None /\ forall j, j < li -> leaf_at t j <> None.

(** The tree of the double size, with blanks on the right *)
Definition grown {A} (t : list (option A)) : list (option A) := t ++ repeat None (S (length t)).

(** There is a place for one more member: arrays have at most 2^32 - 1 nodes. *)
Definition room (t : ratchetTree) : Prop :=
  lenN t < 2 ^ 32 - 1 \/ exists li, 2 * li < lenN t /\ leaf_at t li = None.

(** The node with [li] as one more unmerged leaf *)
Definition with_unmerged (li : N) (n : node) : node :=
  match n with
  | NParent p => NParent (mkParentNode (pn_encryptionKey p) (pn_parentHash p) (pn_unmergedLeaves p ++ [li]))
  | NLeaf l => NLeaf l
  end.

(** [t'] is [t] (of height [k]) with the member [l] at the leaf [li]. *)
Definition added (k : nat) (t t' : ratchetTree) (li : N) (l : leafNode) : Prop :=
  shaped k t' /\ li < leaf_count k /\
  at_path k t' (leafPath k li) = Some (NLeaf l) /\
  (forall p, in_tree k p -> above p (leafPath k li) -> at_path k t' p = option_map (with_unmerged li) (at_path k t p)) /\
  (forall p, in_tree k p -> p <> leafPath k li -> ~ above p (leafPath k li) -> at_path k t' p = at_path k t p).

(** ** Replacing and removing *)
(** [t'] is [t] with [n] at the leaf [li] and blanks above it. *)
Definition replaced {A} (k : nat) (t t' : list (option A)) (li : N) (n : option A) : Prop :=
  full k t' /\ li < leaf_count k /\
  at_path k t' (leafPath k li) = n /\
  (forall p, in_tree k p -> above p (leafPath k li) -> at_path k t' p = None) /\
  (forall p, in_tree k p -> p <> leafPath k li -> ~ above p (leafPath k li) -> at_path k t' p = at_path k t p).

(** [t'] is the smallest tree with the same leaves that are not blank. *)
Definition truncated {A} (k : nat) (t t' : list (option A)) : Prop :=
  (t' = [] /\ forall li, li < leaf_count k -> at_path k t (leafPath k li) = None) \/
  exists k', (k' <= k)%nat /\ full k' t' /\ t' = firstn (N.to_nat (node_count k')) t /\
    (forall li, li < leaf_count k -> at_path k t (leafPath k li) <> None -> li < leaf_count k') /\
    exists li, li < leaf_count k' /\ at_path k t (leafPath k li) <> None /\
               forall j, (j < k')%nat -> leaf_count j <= li.

(** ** Trees in the heap *)
(** All pointers of the tree are to nodes of the heap, and no two are the
    same. *)
Definition proper (h : heap) (t : ptree) : Prop :=
  (forall p, In (Some p) t -> (p < length h)%nat) /\
  forall i j p, nth_error t i = Some (Some p) -> nth_error t j = Some (Some p) -> i = j.

(** ** Members *)
Definition membership := N -> option leafNode.

(** [l] is put at each step at the leftmost leaf without member. *)
Inductive fills : membership -> list leafNode -> membership -> Prop :=
| fills_nil M M' : (forall j, M' j = M j) -> fills M [] M'
| fills_cons M l r i M1 M' :
    M i = None -> (forall j, j < i -> M j <> None) ->
    M1 i = Some l -> (forall j, j <> i -> M1 j = M j) ->
    fills M1 r M' -> fills M (l :: r) M'.

(** The updates, removals and additions of a list of proposals with their
    senders *)
Definition updatesOf (l : list (proposal * N)) : list (N * leafNode) :=
  flat_map (fun ps => match fst ps with PUpdate n => [(designated (snd ps), n)] | _ => [] end) l.
Definition removalsOf (l : list (proposal * N)) : list N :=
  flat_map (fun ps => match fst ps with PRemove r => [designated r] | _ => [] end) l.
Definition additionsOf (l : list (proposal * N)) : list leafNode :=
  flat_map (fun ps => match fst ps with PAdd k => [kp_leafNode k] | _ => [] end) l.

(** The members left once the updates and removals of [l] are done: each leaf is
    updated or removed at most once. *)
Definition changed (M : membership) (l : list (proposal * N)) (M' : membership) : Prop :=
  forall j, (In j (removalsOf l) -> M' j = None) /\
            (forall n, In (j, n) (updatesOf l) -> M' j = Some n) /\
            (~ In j (removalsOf l) -> ~ In j (map fst (updatesOf l)) -> M' j = M j).

(** At most [n] members *)
Definition at_most (M : membership) (n : N) : Prop :=
  exists ms, lenN ms <= n /\ forall j, M j <> None -> In j ms.

(** ** Unmerged leaves *)
(** Every parent node lists only members below it. *)
Definition lists_members_below (k : nat) (t : ratchetTree) : Prop :=
  forall q pn u, in_tree k q -> at_path k t q = Some (NParent pn) -> In u (pn_unmergedLeaves pn) ->
    u < leaf_count k /\ above q (leafPath k u) /\ leaf_at t u <> None.
Definition no_repeats (k : nat) (t : ratchetTree) : Prop :=
  forall q pn, in_tree k q -> at_path k t q = Some (NParent pn) -> NoDup (pn_unmergedLeaves pn).
Definition increasing (k : nat) (t : ratchetTree) : Prop :=
  forall q pn, in_tree k q -> at_path k t q = Some (NParent pn) -> StronglySorted N.lt (pn_unmergedLeaves pn).

(** Every parent node lists only members below it, in increasing order. *)
Definition unmerged_rule (t : ratchetTree) : Prop :=
  t = [] \/ exists k, shaped k t /\ lists_members_below k t /\ increasing k t.

(** In addition, no leaf below a parent node and before one of its unmerged
    leaves is blank. *)
Definition packed (k : nat) (t : ratchetTree) : Prop :=
  forall q pn u j, in_tree k q -> at_path k t q = Some (NParent pn) -> In u (pn_unmergedLeaves pn) ->
    j < u -> above q (leafPath k j) -> leaf_at t j <> None.
Definition strong_rule (t : ratchetTree) : Prop :=
  t = [] \/ exists k, shaped k t /\ lists_members_below k t /\ increasing k t /\ packed k t.

(** A node of a resolution covers the member [li]: it is its leaf, or a node
    above it not listing it as unmerged. *)
Definition covers (k : nat) (t : ratchetTree) (x li : N) : Prop :=
  x = 2 * li \/
  exists q pn, in_tree k q /\ x = number k q /\ at_path k t q = Some (NParent pn) /\ above q (leafPath k li) /\ ~ In li (pn_unmergedLeaves pn).
