(** Groups that nobody can join (C121). *)
From Verif Require Export SpecOwnLeaf SpecAgreement SpecIntegrity SpecTypes SpecWhole.

(** The leaf [i] is not signed by its key for this group and place. *)
Definition unsigned_leaf {C : crypto} (g : group) (i : N) : Prop :=
  exists l, leaf_at (gr_value g) i = Some l /\ ~ leaf_signed (gc_cipherSuite (gr_context g)) (gc_groupID (gr_context g)) i l.

(** The tree [t] and the context [ctx] of the next epoch when [g] adds [kps] *)
Definition invited_tree {C : crypto} (g : group) (kps : list keyPackage) (k : nat) (t : ratchetTree) (ctx : groupContext) : Prop :=
  shaped k t /\ after_proposals (gr_value g) (map (fun p => (PAdd p, gr_myLeafIndex g)) kps) t /\
  gc_cipherSuite ctx = gc_cipherSuite (gr_context g) /\ gc_groupID ctx = gc_groupID (gr_context g) /\
  gc_epoch ctx = (gc_epoch (gr_context g) + 1) mod 2 ^ 64 /\ gc_treeHash ctx = tree_hash (gc_cipherSuite ctx) k t [] k [].

(** What the tree has to be like for those who join *)
Definition valid_members {C : crypto} (k : nat) (t : ratchetTree) (ctx : groupContext) (now : gotime) : Prop :=
  parent_hashes_valid (gc_cipherSuite ctx) k t /\
  (forall li l, leaf_at t li = Some l -> leaf_checked ctx now li l) /\
  distinct_signature_keys t /\ distinct_encryption_keys k t /\ unmerged_below k t /\ credentials_supported t.
