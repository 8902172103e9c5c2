(** Specification of the use of pending proposals (C101). *)
From Verif Require Export SpecProposal SpecAgreement.

(** The proposal and the sender found under a reference in a list of received
    proposals: those of the first one with the reference *)
Definition looked_up (pending : list pendingProposal) (ref : bytes) (p : proposal) (s : N) : Prop :=
  exists pp, first_with_ref pending ref pp /\ pp_proposal pp = p /\ pp_sender pp = s.

(** Two lists agree about what the commit [c] refers to. *)
Definition same_references (c : commit) (P Q : list pendingProposal) : Prop :=
  forall ref, In (PorReference ref) (c_proposals c) -> forall p s, looked_up P ref p s <-> looked_up Q ref p s.
