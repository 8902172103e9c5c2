(** The credentials of the members: C122. *)
From Verif Require Import TakenSamples.

(** ** C122 *)
(** A member can take the credential of another member, who accepts it. *)
Theorem C122_members_do_not_take_names_refuted :
  exists (C : crypto) g raw now ac c g' li i j l m m',
  crypto_ok C /\ obtained g /\ accepts_commit g raw now ac c g' /\ fc_sender (ac_content ac) = SMember li /\ gr_myLeafIndex g = i /\
  leaf_at (gr_value g) i = Some l /\ leaf_at (gr_value g) j = Some m /\ ln_credential m <> ln_credential l /\
  leaf_at (gr_value g') i = Some l /\ leaf_at (gr_value g') j = Some m' /\ ln_credential m' = ln_credential l /\ ln_signatureKey m' = ln_signatureKey m.
Proof. exact name_taken. Qed.
Print Assumptions C122_members_do_not_take_names_refuted.

(** What the credential says never matters, only its type does. *)
Theorem C122_credentials_are_not_looked_at_refuted :
  forall (C : crypto) l l' o, renamed l l' ->
  leafNodeVerifySignature (vo_cipherSuite o) (vo_groupID o) (vo_leafIndex o) l = Ok true ->
  leafNodeVerifySignature (vo_cipherSuite o) (vo_groupID o) (vo_leafIndex o) l' = Ok true ->
  leafNodeVerify l' o = leafNodeVerify l o.
Proof. exact @names_unchecked. Qed.
Print Assumptions C122_credentials_are_not_looked_at_refuted.

(** Missing: that a member keeps its credential. What holds is that the
    credential at a leaf is changed by nobody else, unless by a removal. *)
Theorem C122_credentials_are_changed_by_their_members_partial :
  forall (C : crypto) g raw now ac c g' li i l l', obtained g -> accepts_commit g raw now ac c g' -> fc_sender (ac_content ac) = SMember li ->
  leaf_at (gr_value g) i = Some l -> leaf_at (gr_value g') i = Some l' -> ln_credential l' <> ln_credential l ->
  removes g li c i \/ by_its_member g ac c i l'.
Proof. exact @names_kept. Qed.
Print Assumptions C122_credentials_are_changed_by_their_members_partial.

(** Carol's leaf with Carol's name and with Alice's *)
Example C122_example : renamed keptLeaf takenLeaf /\ ln_credential takenLeaf <> ln_credential keptLeaf /\
  @leafNodeVerifySignature toy 1 (gc_groupID (gr_context gc)) 2 keptLeaf = Ok true /\ @leafNodeVerifySignature toy 1 (gc_groupID (gr_context gc)) 2 takenLeaf = Ok true /\
  @obtained toy ga122 /\ exists ac c, @accepts_commit toy ga122 commit122 clock ac c (snd w122) /\ fc_sender (ac_content ac) = SMember 1 /\
    leaf_at (gr_value ga122) 2 = Some (kp_leafNode (kpp_public carol)) /\ leaf_at (gr_value (snd w122)) 2 = Some takenLeaf.
Proof. exact names_example. Qed.
