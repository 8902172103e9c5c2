(** Members whose calls were made with well-formed key packages. *)
From Verif Require Export SpecObtained SpecTreeHash.

Section WithCrypto.
Context {C : crypto}.

(** The calls a program can make, as in SpecObtained.  Messages and Welcomes come
    from others and may be any values.  The key packages passed to CreateGroup and
    CreateWelcome are values the program has decoded or built: they are within
    the Go types and in normal form. *)
Inductive lawful : group -> Prop :=
| lawful_created groupID kpp rnd g : wf_keyPackage (kpp_public kpp) -> createGroup groupID kpp rnd = Ok g -> lawful g
| lawful_joined w kpp now g : groupFromWelcome w kpp now = Ok g -> lawful g
| lawful_welcome g kps rs ri rh rg g' r : Forall wf_keyPackage kps -> lawful g -> createWelcome g kps rs ri rh rg = (g', r) -> lawful g'
| lawful_message g raw now g' r : lawful g -> unmarshalAndProcessMessage g raw now = (g', r) -> lawful g'.

(** What a member holds is in normal form: what it encodes decodes to the same. *)
Record holds_well_formed (g : group) : Prop := {
  hw_tree : wf_nodes (gr_value g);
  hw_context : wf_groupContext (gr_context g);
  hw_me : u32 (gr_myLeafIndex g);
  hw_pending : Forall (fun pp => wf_proposal (pp_proposal pp) /\ u32 (pp_sender pp)) (gr_pending g)
}.
End WithCrypto.
