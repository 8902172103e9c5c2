(** Private keys of blank nodes: C115. *)
From Verif Require Export SpecGroup SpecObtained.

(** The member has the private key [key] of node [i] of the tree. *)
Definition has_key (g : group) (i : nat) (key : bytes) : Prop := nth_error (gr_privTree g) i = Some (Some key).
(** Node [i] of the member's tree is blank. *)
Definition blank_node (g : group) (i : nat) : Prop := nth_error (gr_value g) i = Some None.

(** The member has no private keys of blank nodes or of nodes outside the tree. *)
Definition tidy (g : group) : Prop := forall i key, has_key g i key -> exists n, nth_error (gr_value g) i = Some (Some n).
