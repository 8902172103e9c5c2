(** What a list of proposals must satisfy (RFC 9420, section 12.2), written
    without reference to the code that checks it.  A proposal comes with the
    leaf index of its sender. *)
From Verif Require Export WellFormed Proposal.

(** The signature keys of the added members *)
Definition addedKeys (l : list (proposal * N)) : list bytes :=
  flat_map (fun ps => match fst ps with PAdd k => [ln_signatureKey (kp_leafNode k)] | _ => [] end) l.
(** The leaves that are updated (by their owner) or removed *)
Definition changedLeaves (l : list (proposal * N)) : list N :=
  flat_map (fun ps => match fst ps with PUpdate _ => [snd ps] | PRemove r => [r] | _ => [] end) l.
(** The PSK ids *)
Definition pskIds (l : list (proposal * N)) : list preSharedKeyID :=
  flat_map (fun ps => match fst ps with PPsk id => [id] | _ => [] end) l.
Definition extensionProposals (l : list (proposal * N)) : list (list extension) :=
  flat_map (fun ps => match fst ps with PGroupContextExtensions e => [e] | _ => [] end) l.

Definition proposal_rule (l : list (proposal * N)) (committer : N) : Prop :=
  NoDup (addedKeys l) /\
  NoDup (changedLeaves l) /\ ~ In committer (changedLeaves l) /\
  NoDup (pskIds l) /\
  (length (extensionProposals l) <= 1)%nat /\
  (forall r s, In (PReInit r, s) l -> l = [(PReInit r, s)]) /\
  (forall k s, ~ In (PExternalInit k, s) l).

(** PSK ids are values of the Go type that can be encoded. *)
Definition psk_ids_encodable (l : list (proposal * N)) : Prop :=
  Forall (fun id => exists e, putPskID id = Ok e) (pskIds l).

(** A proposal that requires an update path (section 12.4) *)
Definition requires_path (p : proposal) : Prop :=
  match p with
  | PUpdate _ | PRemove _ | PExternalInit _ | PGroupContextExtensions _ => True
  | PAdd _ | PPsk _ | PReInit _ => False
  end.

(** The first received proposal with a given reference *)
Definition first_with_ref (pending : list pendingProposal) (ref : bytes) (pp : pendingProposal) : Prop :=
  exists l1 l2, pending = l1 ++ pp :: l2 /\ pp_ref pp = ref /\ forall q, In q l1 -> pp_ref q <> ref.

(** What one entry of a commit stands for: a proposal and its sender *)
Definition stands_for (committer : N) (pending : list pendingProposal) (por : proposalOrRef) (ps : proposal * N) : Prop :=
  match por with
  | PorProposal p => ps = (p, committer)
  | PorReference ref => exists pp, first_with_ref pending ref pp /\ ps = (pp_proposal pp, pp_sender pp)
  end.
