(** The private keys of a member of a group. *)
From Verif Require Export SpecObtained SpecPath SpecCommitTree SpecEpoch.

Section WithCrypto.
Context {C : crypto}.

(** The member has the private keys of its leaf and of the nodes above it that
    do not list it as unmerged, and nothing else. *)
Definition holds_its_keys (g : group) : Prop :=
  exists k, shaped k (gr_value g) /\ holds_keys (gc_cipherSuite (gr_context g)) k (gr_value g) (gr_privTree g) (gr_myLeafIndex g).

(** Its leaf has the same encryption key in two states. *)
Definition same_leaf_key (g g' : group) : Prop :=
  option_map ln_encryptionKey (leaf_at (gr_value g') (gr_myLeafIndex g')) = option_map ln_encryptionKey (leaf_at (gr_value g) (gr_myLeafIndex g)).

(** Where a new member cannot derive the private key, it is listed as unmerged:
    at all nodes above its leaf without path secret, and otherwise at those not
    above the committer [li]. *)
Definition unmerged_without_secret (g : group) (path_secret : bool) (li : N) : Prop :=
  forall k p pn, shaped k (gr_value g) -> above p (leafPath k (gr_myLeafIndex g)) -> at_path k (gr_value g) p = Some (NParent pn) ->
    path_secret = false \/ ~ ancestor_or_self p (leafPath k (designated li)) -> In (gr_myLeafIndex g) (pn_unmergedLeaves pn).

(** ** Commits with a path *)
(** [up], of the leaf [li], is an update path that RFC 9420 prescribes for a
    commit of the proposals [ps] that takes the member [g] to [g']: [t], of
    height [k], is the tree after the proposals, and the path secrets are not
    encrypted to the leaves [new]. *)
Definition prescribed_path (g g' : group) (ps : list (proposal * N)) (li : N) (up : updatePath) (k : nat) (t : ratchetTree) (new : list N) : Prop :=
  let cs := gc_cipherSuite (gr_context g) in
  after_proposals (gr_value g) ps t /\ shaped k t /\ lists_members_below k t /\
  exists commitSecret,
    update_path cs k t (gr_value g') new
      (next_context (gr_context g) (tree_hash cs k (gr_value g') [] k []) (gc_confirmedTranscriptHash (gr_context g)))
      (designated li) up commitSecret.

(** The member [m] is not the committer, has its keys and its leaf after the
    proposals, and every node above it and above a leaf of [new] is also above
    the committer. *)
Definition follows_path (m : group) (li : N) (k : nat) (t : ratchetTree) (new : list N) : Prop :=
  let me := gr_myLeafIndex m in
  me <> designated li /\ holds_its_keys m /\
  option_map ln_encryptionKey (leaf_at t me) = option_map ln_encryptionKey (leaf_at (gr_value m) me) /\
  (forall u a, In u new -> ancestor_or_self a (leafPath k me) -> ancestor_or_self a (leafPath k u) -> ancestor_or_self a (leafPath k (designated li))).
End WithCrypto.
