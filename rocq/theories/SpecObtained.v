(** Groups that the exported operations give. *)
From Verif Require Export SpecAgreement.

(** Two states of a member that no operation tells apart *)
Definition same_state (g g' : group) : Prop :=
  agree g g' /\ gr_myLeafIndex g' = gr_myLeafIndex g /\ gr_privTree g' = gr_privTree g /\ gr_signaturePriv g' = gr_signaturePriv g /\
  gr_pending g' = gr_pending g.
(** The same, but for unmerged leaves *)
Definition same_state_but_unmerged (g g' : group) : Prop :=
  gr_context g' = gr_context g /\ same_but_unmerged (gr_value g) (gr_value g') /\
  gr_interimTranscriptHash g' = gr_interimTranscriptHash g /\ gr_pskSecret g' = gr_pskSecret g /\
  gr_epochSecret g' = gr_epochSecret g /\ gr_initSecret g' = gr_initSecret g /\
  gr_myLeafIndex g' = gr_myLeafIndex g /\ gr_privTree g' = gr_privTree g /\ gr_signaturePriv g' = gr_signaturePriv g /\
  gr_pending g' = gr_pending g.

Section WithCrypto.
Context {C : crypto}.

Inductive obtained : group -> Prop :=
| obtained_created groupID kpp rnd g : createGroup groupID kpp rnd = Ok g -> obtained g
| obtained_joined w kpp now g : groupFromWelcome w kpp now = Ok g -> obtained g
| obtained_welcome g kps rs ri rh rg g' r : obtained g -> createWelcome g kps rs ri rh rg = (g', r) -> obtained g'
| obtained_message g raw now g' r : obtained g -> unmarshalAndProcessMessage g raw now = (g', r) -> obtained g'.

(** What holds of them all *)
Record sane (g : group) : Prop := {
  sane_consistent : consistent g;
  sane_shape : well_shaped (gr_value g);
  sane_index : u32 (gr_myLeafIndex g);
  sane_epoch : u64 (gc_epoch (gr_context g))
}.
End WithCrypto.
