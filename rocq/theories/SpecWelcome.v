(** Groups in order, and those who are invited to join them. *)
From Verif Require Export SpecSound.

Section WithCrypto.
Context {C : crypto}.

(** The state of a member whose group is in order *)
Record in_order (g : group) : Prop := {
  io_context : wf_groupContext (gr_context g);
  io_index : u32 (gr_myLeafIndex g);
  io_consistent : consistent g;
  io_sign : can_sign g;
  io_tree : exists k, sound_tree (gc_cipherSuite (gr_context g)) (gc_groupID (gr_context g)) k (gr_value g)
}.

(** The key packages may be added to the group, all of them. *)
Definition may_join (g : group) (kps : list keyPackage) : Prop :=
  Forall wf_keyPackage kps /\ Forall (addable (gr_context g)) kps /\
  Forall (fun k => newcomer (gc_cipherSuite (gr_context g)) (kp_leafNode k)) kps /\
  go_together (gr_value g) (map kp_leafNode kps).

(** Nobody's key package has expired, or is not valid yet. *)
Definition all_current (g : group) (kps : list keyPackage) (now : gotime) : Prop :=
  Forall (current_leaf now) (leafNodesOf (gr_value g) ++ map kp_leafNode kps).
End WithCrypto.
