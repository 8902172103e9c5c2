(** Members hold well-formed values: C87; what that says of members with one
    epoch secret: C78. *)
From Verif Require Import TypesSamples.

(** ** C87 *)
Theorem C87_members_hold_well_formed_values : forall (C : crypto) g, lawful g -> holds_well_formed g.
Proof. exact @lawful_holds. Qed.
Print Assumptions C87_members_hold_well_formed_values.

Theorem C87_what_members_encode_decodes_to_the_same :
  forall (C : crypto) g, lawful g ->
  (forall e rest, putGroupContext (gr_context g) = Ok e -> getGroupContext (e ++ rest) = (Ok (gr_context g), rest)) /\
  (forall n e rest, In (Some n) (gr_value g) -> putNode n = Ok e -> getNode (e ++ rest) = (Ok n, rest)) /\
  (forall pp e rest, In pp (gr_pending g) -> putProposal (pp_proposal pp) = Ok e -> getProposal (e ++ rest) = (Ok (pp_proposal pp), rest)).
Proof. exact @lawful_encodings. Qed.
Print Assumptions C87_what_members_encode_decodes_to_the_same.

(** Alice and Carol, before and after a commit with a path; Bob's path left a
    parent node in their trees. *)
Example C87_example :
  crypto_ok toy /\ @lawful toy qa /\ @lawful toy qc /\ @lawful toy qa' /\ @lawful toy qc' /\
  @just_entered toy qa' /\ @just_entered toy qc' /\ gr_epochSecret qa' = gr_epochSecret qc' /\ gr_myLeafIndex qa' <> gr_myLeafIndex qc' /\
  (exists x pn, nth_error (gr_value qa') x = Some (Some (NParent pn))) /\ gc_epoch (gr_context qa') <> 0.
Proof. exact types_example. Qed.

(** ** C78, for these members *)
Theorem C78_members_with_one_epoch_secret_have_one_view :
  forall (C : crypto) g1 g2 j1 j2, crypto_ok C -> lawful g1 -> lawful g2 -> just_entered g1 -> just_entered g2 ->
  has_joiner g1 j1 -> has_joiner g2 j2 -> gr_epochSecret g1 = gr_epochSecret g2 ->
  exists k1 k2, shaped k1 (gr_value g1) /\ shaped k2 (gr_value g2) /\
    ((gr_context g1 = gr_context g2 /\ gr_value g1 = gr_value g2 /\ j1 = j2) \/ collide (epochQueries g1 j1 k1) (epochQueries g2 j2 k2)).
Proof. exact @lawful_same_view. Qed.
Print Assumptions C78_members_with_one_epoch_secret_have_one_view.

Theorem C78_members_with_one_epoch_secret_have_one_past :
  forall (C : crypto) g1 raw1 now1 ac1 c1 g1' s1 g2 raw2 now2 ac2 c2 g2' s2, crypto_ok C ->
  lawful g1 -> accepts_commit g1 raw1 now1 ac1 c1 g1' -> has_commit_secret g1 g1' s1 ->
  lawful g2 -> accepts_commit g2 raw2 now2 ac2 c2 g2' -> has_commit_secret g2 g2' s2 -> gr_epochSecret g1' = gr_epochSecret g2' ->
  (untagged (entry ac1) = untagged (entry ac2) /\ s1 = s2 /\
   gr_epochSecret g1 = gr_epochSecret g2 /\ gr_interimTranscriptHash g1 = gr_interimTranscriptHash g2) \/
  collide (commitQueries g1 g1' s1 ac1) (commitQueries g2 g2' s2 ac2).
Proof. exact @lawful_same_past. Qed.
Print Assumptions C78_members_with_one_epoch_secret_have_one_past.
