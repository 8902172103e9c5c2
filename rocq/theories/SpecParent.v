(** Parent-hash validity (RFC 9420, section 7.9.2). *)
From Verif Require Export SpecObtained SpecIntegrity.

Section WithCrypto.
Context {C : crypto}.

(** The parent node [n] at [p] is parent-hash valid: for one of its children, on
    the side [b], a node [d] of the resolution of the child has the parent hash
    of [n] with the other child, without the unmerged leaves of [n], as its
    parent hash, and [all_merged]: the other nodes of this resolution are the
    unmerged leaves of [n] below the child. *)
Definition linked_from (cs : N) (k : nat) (t : ratchetTree) (p : path) (n : parentNode) (b : bool) (q : path) : Prop :=
  In q (resolution k t (k - S (length p)) (p ++ [b])) /\
  exists d, at_path k t q = Some d /\
    parentHashOf d = parent_hash cs (pn_encryptionKey n) (pn_parentHash n) (tree_hash cs k t (pn_unmergedLeaves n) (k - S (length p)) (p ++ [negb b])).
Definition all_merged (k : nat) (t : ratchetTree) (p : path) (n : parentNode) (b : bool) (q : path) : Prop :=
  forall x, In x (resolution k t (k - S (length p)) (p ++ [b])) /\ x <> q <->
            exists u, In u (pn_unmergedLeaves n) /\ x = leafPath k (designated u) /\ ancestor_or_self (p ++ [b]) x.

Definition rfc_parent_valid (cs : N) (k : nat) (t : ratchetTree) (p : path) (n : parentNode) : Prop :=
  exists b q, linked_from cs k t p n b q /\ all_merged k t p n b q.

(** Every parent node is parent-hash valid, and lists members below it only. *)
Definition rfc_parents_valid (cs : N) (t : ratchetTree) : Prop :=
  exists k, shaped k t /\ lists_members_below k t /\
    forall p n, in_tree k p -> at_path k t p = Some (NParent n) -> rfc_parent_valid cs k t p n.
End WithCrypto.
