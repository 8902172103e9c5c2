(** Specification of array-based trees, independent of tree_math.go.

    A perfect binary tree of height [k] has one node for every path of at most
    [k] left/right turns from the root ([false] = left, [true] = right).  RFC
    9420 numbers the nodes in-order: the nodes of the left subtree, then the
    root, then the nodes of the right subtree. *)
From Verif Require Export Base.

Definition path := list bool.

(** A (perfect) tree of height [k] has [2^(k+1)-1] nodes and [2^k] leaves. *)
Definition node_count (k : nat) : N := 2 ^ N.of_nat (S k) - 1.
Definition leaf_count (k : nat) : N := 2 ^ N.of_nat k.

(** In-order number of the node at the end of path [p] in a tree of height [k]. *)
Fixpoint number (k : nat) (p : path) : N :=
  match p, k with
  | [], _ => node_count (pred k) * (if Nat.eqb k 0 then 0 else 1)   (* all of the left subtree comes before *)
  | false :: r, S k' => number k' r
  | true :: r, S k' => node_count k' + 1 + number k' r               (* left subtree and root come before *)
  | _ :: _, O => 0
  end.

Definition in_tree (k : nat) (p : path) : Prop := (length p <= k)%nat.

(** [a] is an ancestor of [p], or [p] itself *)
Definition ancestor_or_self (a p : path) : Prop := exists s, p = a ++ s.

(** The proper ancestors of a node, nearest first, ending with the root *)
Fixpoint proper_ancestors (p : path) : list path :=
  match p with
  | [] => []
  | b :: r => map (cons b) (proper_ancestors r) ++ [ [] ]
  end.

(** The siblings of the node and of its ancestors below the root, nearest first *)
Fixpoint siblings_up (p : path) : list path :=
  match p with
  | [] => []
  | b :: r => map (cons b) (siblings_up r) ++ [ [negb b] ]
  end.

(** The number of the node among those of its level, from the left (so the leaf
    index, for a leaf): the turns are its binary digits. *)
Fixpoint val (p : path) : N :=
  match p with
  | [] => 0
  | b :: r => N.b2n b * 2 ^ lenN r + val r
  end.

(** The largest tree whose node numbers fit in 32 bits has height 31. *)
Definition fits (k : nat) : Prop := (k <= 31)%nat.
