(** The keys and signatures of the leaves that a commit puts in the tree. *)
From Verif Require Export SpecObtained.

(** The leaf nodes of the updates and additions of a list of proposals *)
Definition newLeaves (ps : list (proposal * N)) : list leafNode := map snd (updatesOf ps) ++ additionsOf ps.

(** The keys of the new leaf nodes, as given by [f]: no two are the same; that
    of an update is not the key of another member, and that of an addition not
    the key of any member. *)
Definition fresh_keys (f : leafNode -> bytes) (M : membership) (ps : list (proposal * N)) : Prop :=
  NoDup (map f (newLeaves ps)) /\
  (forall s n j l, In (s, n) (updatesOf ps) -> M j = Some l -> f l = f n -> j = s) /\
  (forall n j l, In n (additionsOf ps) -> M j = Some l -> f l <> f n).

(** A parent node of the tree has the encryption key [key]. *)
Definition parent_key (t : ratchetTree) (key : bytes) : Prop :=
  exists i pn, nth_error t i = Some (Some (NParent pn)) /\ pn_encryptionKey pn = key.

(** No two nodes have the same encryption key. *)
Definition distinct_node_keys (t : ratchetTree) : Prop :=
  forall i j n m, nth_error t i = Some (Some n) -> nth_error t j = Some (Some m) ->
    node_encryptionKey n = node_encryptionKey m -> i = j.

(** The encryption keys of an update path *)
Definition pathKeys (up : updatePath) : list bytes := ln_encryptionKey (up_leafNode up) :: map upn_encryptionKey (up_nodes up).

(** The new encryption keys are all different, and different from those of the
    members and of the parent nodes; keys of a path need not be compared with
    those of members. *)
Definition fresh_encryption_keys (t : ratchetTree) (ps : list (proposal * N)) (path : option updatePath) : Prop :=
  fresh_keys ln_encryptionKey (leaf_at t) ps /\
  (forall l, In l (newLeaves ps) -> ~ parent_key t (ln_encryptionKey l)) /\
  (forall up, path = Some up -> NoDup (pathKeys up) /\ forall key, In key (pathKeys up) -> ~ parent_key t key).

Section WithCrypto.
Context {C : crypto}.

(** Every leaf node is signed by its owner for the group and its place. *)
Definition all_signed (cs : N) (groupID : bytes) (t : ratchetTree) : Prop :=
  forall li l, leaf_at t li = Some l -> leaf_signed cs groupID li l.

(** The leaf nodes of the updates are signed for the leaves they update; those of the
    additions for whatever place. *)
Definition new_leaves_signed (cs : N) (groupID : bytes) (ps : list (proposal * N)) : Prop :=
  (forall s n, In (s, n) (updatesOf ps) -> leaf_signed cs groupID s n) /\
  (forall n, In n (additionsOf ps) -> forall li, leaf_signed cs groupID li n).
End WithCrypto.
