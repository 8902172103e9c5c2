(** Where the keys of parent nodes come from, and whom they outlive. *)
From Verif Require Export SpecOwnLeaf.

(** The node number [x] is above the leaf [i], in trees of any height. *)
Definition over (x i : N) : Prop :=
  exists k p, i < leaf_count k /\ x = number k p /\ above p (leafPath k i).

Definition parent_at (t : ratchetTree) (x : N) : option parentNode :=
  match nth_error t (N.to_nat x) with Some (Some (NParent n)) => Some n | _ => None end.

(** The parent node [n'] at [x] in [t'] is the one at [x] in [t], with more
    unmerged leaves perhaps: all leaves below are those of [t], but for new ones
    that are unmerged. *)
Definition stays (t t' : ratchetTree) (x : N) (n' : parentNode) : Prop :=
  exists n more, parent_at t x = Some n /\
    n' = mkParentNode (pn_encryptionKey n) (pn_parentHash n) (pn_unmergedLeaves n ++ more) /\
    forall i, over x i -> leaf_at t' i = leaf_at t i \/ leaf_at t i = None /\ In i (pn_unmergedLeaves n').

Section WithCrypto.
Context {C : crypto}.

(** The commit [c], which is the content of [ac], has a path with this key, and
    was signed by a member below the node [x]. *)
Definition brings_key (g : group) (ac : authenticatedContent) (c : commit) (x : N) (key : bytes) : Prop :=
  exists i up u, over x i /\ signed_by_leaf g i ac /\ c_path c = Some up /\ In u (up_nodes up) /\ upn_encryptionKey u = key.
End WithCrypto.
