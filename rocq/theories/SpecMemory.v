(** What it means that the key packages and group informations in a message
    are signed. *)
From Verif Require Export Types.

Definition signed_proposal (p : proposal) : Prop :=
  match p with PAdd k => kp_signature k <> [] | _ => True end.
Definition signed_entry (x : proposalOrRef) : Prop :=
  match x with PorProposal p => signed_proposal p | PorReference _ => True end.
Definition signed_body (b : body) : Prop :=
  match b with
  | BApplication _ => True
  | BProposal p => signed_proposal p
  | BCommit c => Forall signed_entry (c_proposals c)
  end.
Definition signed_message (m : mlsMessage) : Prop :=
  match m with
  | MPublic p => signed_body (fc_body (pubm_content p))
  | MGroupInfo i => gi_signature i <> []
  | MKeyPackage k => kp_signature k <> []
  | MPrivate _ | MWelcome _ => True
  end.
