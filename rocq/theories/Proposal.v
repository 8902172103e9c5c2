(** Proposal lists (proposal.go:306-383, group.go:560-587). *)
From Verif Require Export Schedule.

(** The maps of verifyProposalList (proposal.go:311-314): the keys seen. *)
Record seen := mkSeen {
  sn_add : list bytes;
  sn_updateOrRemove : list N;
  sn_psk : list bytes;
  sn_gce : bool }.

(** proposal.go:316-362, the body of the loop; [count] is [len(proposals)]. *)
Definition verifyProposal (count : N) (committer : N) (s : seen) (ps : proposal * N) : res seen :=
  let '(prop, sender) := ps in
  match prop with
  | PAdd kp =>
    let k := ln_signatureKey (kp_leafNode kp) in
    let! _ := guard (negb (memB k (sn_add s))) "mls: multiple add proposals have the same signature key" in
    Ok (mkSeen (k :: sn_add s) (sn_updateOrRemove s) (sn_psk s) (sn_gce s))
  | PUpdate _ =>
    let! _ := guard (negb (sender =? committer)) "mls: update proposal generated by the committer" in
    let! _ := guard (negb (memN sender (sn_updateOrRemove s))) "mls: multiple update and/or remove proposals apply to the same leaf" in
    Ok (mkSeen (sn_add s) (sender :: sn_updateOrRemove s) (sn_psk s) (sn_gce s))
  | PRemove removed =>
    let! _ := guard (negb (removed =? committer)) "mls: remove proposal removes the committer" in
    let! _ := guard (negb (memN removed (sn_updateOrRemove s))) "mls: multiple update and/or remove proposals apply to the same leaf" in
    Ok (mkSeen (sn_add s) (removed :: sn_updateOrRemove s) (sn_psk s) (sn_gce s))
  | PPsk id =>
    let! k := putPskID id in
    let! _ := guard (negb (memB k (sn_psk s))) "mls: multiple PSK proposals reference the same PSK ID" in
    Ok (mkSeen (sn_add s) (sn_updateOrRemove s) (k :: sn_psk s) (sn_gce s))
  | PGroupContextExtensions _ =>
    let! _ := guard (negb (sn_gce s)) "mls: multiple group context extensions proposals" in
    Ok (mkSeen (sn_add s) (sn_updateOrRemove s) (sn_psk s) true)
  | PReInit _ =>
    let! _ := guard (negb (1 <? count)) "mls: reinit proposal together with any other proposal" in
    Ok s
  | PExternalInit _ => Err "mls: external init proposal is not allowed"
  end.

(** proposal.go:306-365 verifyProposalList *)
Definition verifyProposalList (proposals : list proposal) (senders : list N) (committer : N) : res unit :=
  if negb (lenN proposals =? lenN senders) then Panic "unreachable" else
  let! _ := foldM (verifyProposal (lenN proposals) committer) (mkSeen [] [] [] false) (combine proposals senders) in
  Ok tt.

(** proposal.go:367-381 proposalListNeedsPath *)
Definition proposalListNeedsPath (proposals : list proposal) : bool :=
  match proposals with
  | [] => true
  | _ => existsb (fun p => match p with
                           | PUpdate _ | PRemove _ | PExternalInit _ | PGroupContextExtensions _ => true
                           | _ => false
                           end) proposals
  end.

(** group.go:12-16 pendingProposal *)
Record pendingProposal := mkPendingProposal {
  pp_ref : bytes;
  pp_proposal : proposal;
  pp_sender : N }.

(** group.go:560-587 resolveProposals *)
Fixpoint resolveProposals (l : list proposalOrRef) (senderLeafIndex : N) (pending : list pendingProposal)
  : res (list (proposal * N)) :=
  match l with
  | [] => Ok []
  | por :: r =>
    let! p := match por with
              | PorProposal p => Ok (p, senderLeafIndex)
              | PorReference ref =>
                match find (fun pp => bytes_eqb (pp_ref pp) ref) pending with
                | Some pp => Ok (pp_proposal pp, pp_sender pp)
                | None => Err "mls: cannot find proposal reference"
                end
              end in
    let! ps := resolveProposals r senderLeafIndex pending in
    Ok (p :: ps)
  end.
