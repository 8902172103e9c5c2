(** The leaf of the member itself (C123). *)
From Verif Require Export SpecOwnLeaf SpecAgreement.

(** The leaf that the member had before, or one that it signed itself *)
Definition still_its_leaf {C : crypto} (g : group) (ac : authenticatedContent) (c : commit) (l' : leafNode) : Prop :=
  leaf_at (gr_value g) (gr_myLeafIndex g) = Some l' \/ by_its_member g ac c (gr_myLeafIndex g) l'.
