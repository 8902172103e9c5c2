(** Proposals that have been received: C126. *)
From Verif Require Import DroppedSamples.

(** ** C126 *)
(** A member who has received the proposal to remove another sends application
    data all the same, and the other reads it. *)
Theorem C126_no_data_is_sent_before_proposals_are_committed_refuted :
  forall (C : crypto) g m pp data rs rg now, crypto_ok C -> compact C -> obtained g -> can_sign g ->
  In pp (gr_pending g) -> pp_proposal pp = PRemove (gr_myLeafIndex m) -> same_epoch g m ->
  lenN rg = 4 -> lenN (enc_groupContext (gr_context g)) + lenN data < 2 ^ 26 ->
  exists raw, createApplicationMessage g data rs rg = Ok raw /\ unmarshalAndProcessMessage m raw now = (m, Ok (Some data)).
Proof. exact @sent_despite_removal. Qed.
Print Assumptions C126_no_data_is_sent_before_proposals_are_committed_refuted.

(** The commits of CreateWelcome leave out the proposals received, and those who
    accept such a commit forget them: the member who was to be removed stays. *)
Theorem C126_commits_carry_out_the_proposals_received_refuted :
  forall (C : crypto) g kps rs ri rh rg g1 w raw m pp r l now, crypto_ok C -> obtained g -> can_sign g -> lenN rg = 4 ->
  Forall wf_keyPackage kps -> Forall (addable (gr_context g)) kps -> NoDup (map (fun k => ln_signatureKey (kp_leafNode k)) kps) ->
  createWelcome g kps rs ri rh rg = (g1, Ok (w, raw)) -> obtained m -> agree g m ->
  In pp (gr_pending g) -> In pp (gr_pending m) -> pp_proposal pp = PRemove r -> leaf_at (gr_value m) r = Some l ->
  exists m', unmarshalAndProcessMessage m raw now = (m', Ok None) /\ gr_pending m' = [] /\ leaf_at (gr_value m') r = Some l.
Proof. exact @dropped_by_invitation. Qed.
Print Assumptions C126_commits_carry_out_the_proposals_received_refuted.

(** Missing: that commits refer to the proposals received.  What holds is that
    an accepted commit that refers to the proposal to remove a member does so:
    after it the leaf is blank or that of a member whom the commit adds. *)
Theorem C126_commits_carry_out_the_removals_they_refer_to_partial :
  forall (C : crypto) g raw now ac c g' li ps pp r l', obtained g -> accepts_commit g raw now ac c g' ->
  fc_sender (ac_content ac) = SMember li -> commits g li c ps ->
  In pp (gr_pending g) -> (forall pp', In pp' (gr_pending g) -> pp_ref pp' = pp_ref pp -> pp' = pp) ->
  In (PorReference (pp_ref pp)) (c_proposals c) -> pp_proposal pp = PRemove r -> designated r <> designated li ->
  leaf_at (gr_value g') (designated r) = Some l' -> In l' (additionsOf ps).
Proof. exact @referenced_removals. Qed.
Print Assumptions C126_commits_carry_out_the_removals_they_refer_to_partial.

Example C126_example : @obtained toy gb126 /\ @obtained toy ga126 /\ @can_sign toy gb126 /\ agree gb126 ga126 /\ same_epoch gb126 gc /\
  In pp126 (gr_pending gb126) /\ In pp126 (gr_pending ga126) /\ pp_proposal pp126 = PRemove (gr_myLeafIndex gc) /\ gr_myLeafIndex gc = 2 /\
  @createApplicationMessage toy gb126 (str "secret") [] (str "abcd") = Ok secret126 /\ @unmarshalAndProcessMessage toy gc secret126 clock = (gc, Ok (Some (str "secret"))) /\
  (exists g1 w, @createWelcome toy gb126 [kpp_public dave] [] [] [str "z"] (str "efgh") = (g1, Ok (w, raw126))) /\
  (exists m' l, @unmarshalAndProcessMessage toy ga126 raw126 clock = (m', Ok None) /\ gr_pending m' = [] /\
     leaf_at (gr_value ga126) 2 = Some l /\ leaf_at (gr_value m') 2 = Some l /\ leaf_at (gr_value m') 3 = Some (kp_leafNode (kpp_public dave))).
Proof. exact dropped_example. Qed.
(** Bob commits Carol's proposal to remove Dave by its reference. *)
Example C126_example_of_reference :
  @obtained toy qa1 /\ In pp81 (gr_pending qa1) /\ pp_proposal pp81 = PRemove 3 /\
  (forall pp, In pp (gr_pending qa1) -> pp_ref pp = pp_ref pp81 -> pp = pp81) /\
  (exists ac c, @accepts_commit toy qa1 commit81 clock ac c (snd w81) /\ fc_sender (ac_content ac) = SMember 1 /\
    commits qa1 1 c [(PRemove 3, 2)] /\ In (PorReference (pp_ref pp81)) (c_proposals c)) /\
  leaf_at (gr_value qa1) 3 <> None /\ leaf_at (gr_value (snd w81)) 3 = None.
Proof. exact carried_out_example. Qed.
