(** The nodes of a member: its leaf and those above, wherever the tree ends. *)
From Verif Require Export SpecObtained.

(** [x] is the node of the leaf [li] or a node above it, in the largest tree.
    A node has the same number in all the trees that have it. *)
Definition own_node (li x : N) : Prop := exists p, ancestor_or_self p (leafPath 31 li) /\ x = number 31 p.

(** Private keys are only of own nodes. *)
Definition own_keys (li : N) (priv : privTree) : Prop :=
  forall x key, nth_error priv (N.to_nat x) = Some (Some key) -> own_node li x.

(** Every unmerged leaf is listed by nodes above it. *)
Definition lists_below (t : ratchetTree) : Prop :=
  forall x pn u, nth_error t (N.to_nat x) = Some (Some (NParent pn)) -> In u (pn_unmergedLeaves pn) -> own_node (designated u) x.

(** The nodes of [li] are blank, or out of the tree. *)
Definition cleared (li : N) (t : ratchetTree) : Prop :=
  forall x n, own_node li x -> nth_error t (N.to_nat x) <> Some (Some n).
