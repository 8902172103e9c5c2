(** Valid messages and Welcomes are accepted: C74 and C75. *)
From Verif Require Import AcceptSamples InviteSamples.

(** ** C74 *)
(** [delivered] says how the bytes are made from the content, [valid_commit]
    what the proposals have to satisfy, and [valid_tree] the update path and
    the tree [t'] after it. *)
Theorem C74_valid_commits_are_accepted :
  forall (C : crypto) g raw ac c li ps t' now, crypto_ok C -> obtained g -> known_suite (gc_cipherSuite (gr_context g)) ->
  delivered g raw ac -> valid_commit g ac c li ps -> valid_tree g c li ps t' ->
  exists g', unmarshalAndProcessMessage g raw now = (g', Ok None) /\ gr_value g' = t'.
Proof. exact @valid_commits_accepted. Qed.
Print Assumptions C74_valid_commits_are_accepted.

(** Bob removes Dave with an update path. *)
Example C74_example : crypto_ok toy /\ @obtained toy qa /\ known_suite (gc_cipherSuite (gr_context qa)) /\
  exists ac c t', @delivered toy qa w50raw ac /\ @valid_commit toy qa ac c 1 [(PRemove 3, 1)] /\ @valid_tree toy qa c 1 [(PRemove 3, 1)] t' /\
    c_path c <> None /\ t' <> gr_value qa.
Proof. exact accept_example. Qed.

Theorem C74_proposals_are_accepted :
  forall (C : crypto) g raw ac p now, crypto_ok C -> known_suite (gc_cipherSuite (gr_context g)) ->
  delivered g raw ac -> fc_body (ac_content ac) = BProposal p ->
  exists g' li, unmarshalAndProcessMessage g raw now = (g', Ok None) /\ fc_sender (ac_content ac) = SMember li /\
    same_but_pending g g' /\ gr_pending g' = gr_pending g ++ [mkPendingProposal (ProposalRef (gc_cipherSuite (gr_context g)) ac) p li].
Proof. exact @valid_proposals_accepted. Qed.
Print Assumptions C74_proposals_are_accepted.

Theorem C74_application_data_is_returned :
  forall (C : crypto) g raw ac d now, crypto_ok C -> known_suite (gc_cipherSuite (gr_context g)) ->
  delivered g raw ac -> fc_body (ac_content ac) = BApplication d -> ac_wireFormat ac = 2 ->
  unmarshalAndProcessMessage g raw now = (g, Ok (Some d)).
Proof. exact @valid_data_accepted. Qed.
Print Assumptions C74_application_data_is_returned.

(** Bob says hello in a private message. *)
Example C74_data_example : crypto_ok toy /\ known_suite (gc_cipherSuite (gr_context ga)) /\
  exists a, @delivered toy ga w35raw (mkAuthenticatedContent 2 hello74 a).
Proof. exact data_example. Qed.

(** ** C75 *)
(** [invites] says how the Welcome is made from the group secrets [s], the
    group information [gi] and the tree [t], and what the tree has to satisfy. *)
Theorem C75_valid_welcomes_are_accepted :
  forall (C : crypto) w raw kpp s gi k t me now, crypto_ok C -> later_than_1970 now -> invites w kpp s gi k t me now ->
  raw = enc_mlsMessage (MWelcome w) -> u16 (w_cipherSuite w) -> lenN raw < 2 ^ 30 ->
  unmarshalWelcome raw = Ok w /\
  exists g, groupFromWelcome w kpp now = Ok g /\ gr_value g = t /\ gr_context g = gi_groupContext gi /\ gr_myLeafIndex g = me /\
    gr_epochSecret g = epoch_secret (gi_groupContext gi) (gs_joinerSecret s) (psk_secret (w_cipherSuite w) []).
Proof. exact @invited_joins_raw. Qed.
Print Assumptions C75_valid_welcomes_are_accepted.

(** Dave joins with a path secret. *)
Example C75_example : crypto_ok toy /\ later_than_1970 clock /\ @invites toy w75 dave s75 gi75 2 t52c' 1 clock /\ gs_pathSecret s75 <> None /\
  u16 (w_cipherSuite w75) /\ lenN (enc_mlsMessage (MWelcome w75)) < 2 ^ 30.
Proof. exact invite_example. Qed.
