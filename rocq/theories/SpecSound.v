(** Trees of groups whose members joined as the protocol prescribes, and key
    packages fit to join them. *)
From Verif Require Export SpecKeyPackage SpecJoin.

Definition somes {A} (l : list (option A)) : list A := flat_map (fun o => match o with Some a => [a] | None => [] end) l.
Definition leafPart (o : option node) : option leafNode := match o with Some (NLeaf l) => Some l | _ => None end.
(** The leaf nodes of a tree, and the encryption keys of all its nodes *)
Definition leafNodesOf (t : ratchetTree) : list leafNode := somes (map leafPart t).
Definition encryptionKeysOf (t : ratchetTree) : list bytes := somes (map (option_map node_encryptionKey) t).

(** Each lists the types of all the credentials. *)
Definition support_each_other (ls : list leafNode) : Prop :=
  forall a b, In a ls -> In b ls -> In (cred_type (ln_credential a)) (caps_credentials (ln_capabilities b)).
(** No credential type is listed twice, and the types of the extensions are
    listed. *)
Definition proper_capabilities (l : leafNode) : Prop :=
  NoDup (caps_credentials (ln_capabilities l)) /\
  forall e, In e (ln_extensions l) -> In (ext_type e) (caps_extensions (ln_capabilities l)).
Definition current_leaf (now : gotime) (l : leafNode) : Prop :=
  forall lt, ln_lifetime l = Some lt -> current lt now /\ ends_in_time lt.

(** The tree has a member in its right half, if it has one. *)
Definition smallest (k : nat) (t : ratchetTree) : Prop :=
  exists li, leaf_at t li <> None /\ forall j, (j < k)%nat -> leaf_count j <= li.

Section WithCrypto.
Context {C : crypto}.

Record sound_tree (cs : N) (groupID : bytes) (k : nat) (t : ratchetTree) : Prop := {
  st_shaped : shaped k t;
  st_smallest : smallest k t;
  st_wf : wf_nodes t;
  st_signed : forall li l, leaf_at t li = Some l -> leaf_signed cs groupID li l;
  st_capabilities : Forall proper_capabilities (leafNodesOf t);
  st_support : support_each_other (leafNodesOf t);
  st_signatureKeys : NoDup (map ln_signatureKey (leafNodesOf t));
  st_encryptionKeys : NoDup (encryptionKeysOf t);
  st_parents : parent_hashes_valid cs k t;
  st_unmerged : unmerged_below k t;
  st_members : lists_members_below k t
}.

(** A leaf node for anyone who is to join a group *)
Definition newcomer (cs : N) (l : leafNode) : Prop :=
  wf_leafNode l /\ ln_source l = 1 /\ leaf_signed_anywhere cs l /\ proper_capabilities l.

(** Leaf nodes that fit in the tree together *)
Definition go_together (t : ratchetTree) (ls : list leafNode) : Prop :=
  support_each_other (leafNodesOf t ++ ls) /\
  NoDup (map ln_signatureKey (leafNodesOf t) ++ map ln_signatureKey ls) /\
  NoDup (encryptionKeysOf t ++ map ln_encryptionKey ls).
End WithCrypto.
