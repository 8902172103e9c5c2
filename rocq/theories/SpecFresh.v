(** New encryption keys (C120). *)
From Verif Require Export SpecOwnLeaf.

(** No leaf that the proposals [ps] of the committer [li] update or remove has
    an index of 2^31 or more (see C27). *)
Definition indices_below (li : N) (ps : list (proposal * N)) : Prop := forall i, In i (li :: changedLeaves ps) -> i < 2 ^ 31.
(** The node with the path [p] is a parent node with this key. *)
Definition parent_with_key (k : nat) (t : ratchetTree) (p : list bool) (key : bytes) : Prop :=
  exists pn, at_path k t p = Some (NParent pn) /\ pn_encryptionKey pn = key.
