(** Specification of the order of proposals (C102). *)
From Verif Require Export SpecCommitTree SpecAgreement.
From Coq Require Import Permutation.

(** The same updates and the same removals in any order, and the same additions
    in the same order, whatever comes between *)
Definition reordered (ps qs : list (proposal * N)) : Prop :=
  Permutation (updatesOf ps) (updatesOf qs) /\ Permutation (removalsOf ps) (removalsOf qs) /\ additionsOf ps = additionsOf qs.
