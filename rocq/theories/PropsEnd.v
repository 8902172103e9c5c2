(** Groups that are to be replaced: C110. *)
From Verif Require Import EndSamples.

(** ** C110 *)
(** A member who accepts the commit of a reinit proposal goes on: it can send
    messages, which the others in the epoch read, and invite. *)
Theorem C110_reinit_ends_the_group_refuted :
  forall (C : crypto) g raw now ac c g' li ps r s, crypto_ok C -> compact C -> obtained g -> can_sign g -> accepts_commit g raw now ac c g' ->
  fc_sender (ac_content ac) = SMember li -> commits g li c ps -> In (PReInit r, s) ps -> c_path c = None ->
  obtained g' /\ can_sign g' /\
  (forall data rnd rg, lenN rg = 4 -> lenN (enc_groupContext (gr_context g')) + lenN data < 2 ^ 26 ->
     exists msg, createApplicationMessage g' data rnd rg = Ok msg /\
       forall m now', same_epoch g' m -> unmarshalAndProcessMessage m msg now' = (m, Ok (Some data))) /\
  (forall kps rs ri rh rg, can_invite g' kps -> lenN rg = 4 -> exists g1 w com, createWelcome g' kps rs ri rh rg = (g1, Ok (w, com))).
Proof. exact @reinit_ignored. Qed.
Print Assumptions C110_reinit_ends_the_group_refuted.

(** What holds is that nothing else is done by the commit. *)
Theorem C110_reinit_is_committed_alone_partial :
  forall (C : crypto) g raw now ac c g' li ps r s, obtained g -> accepts_commit g raw now ac c g' ->
  fc_sender (ac_content ac) = SMember li -> commits g li c ps -> In (PReInit r, s) ps ->
  ps = [(PReInit r, s)] /\ (c_path c = None -> gr_value g' = gr_value g) /\
  gc_groupID (gr_context g') = gc_groupID (gr_context g) /\ gc_version (gr_context g') = gc_version (gr_context g) /\
  gc_cipherSuite (gr_context g') = gc_cipherSuite (gr_context g) /\ gc_extensions (gr_context g') = gc_extensions (gr_context g) /\
  gr_myLeafIndex g' = gr_myLeafIndex g /\ gr_signaturePriv g' = gr_signaturePriv g.
Proof. exact @reinit_only. Qed.
Print Assumptions C110_reinit_is_committed_alone_partial.

(** Bob commits a reinit with an older version and another cipher suite.  Alice
    accepts it, and writes to the group. *)
Example C110_example :
  @obtained toy ga /\ @can_sign toy ga /\
  @accepts_commit toy ga w110raw clock (publicContent (fst (fst w110))) (mkCommit [PorProposal (PReInit w110reInit)] None) (snd w110) /\
  fc_sender (ac_content (publicContent (fst (fst w110)))) = SMember 1 /\ commits ga 1 (mkCommit [PorProposal (PReInit w110reInit)] None) [(PReInit w110reInit, 1)] /\
  gc_epoch (gr_context (snd w110)) = gc_epoch (gr_context ga) + 1 /\
  lenN (enc_groupContext (gr_context (snd w110))) + lenN (str "hello") < 2 ^ 26 /\ is_ok (@createApplicationMessage toy (snd w110) (str "hello") [] (str "efgh")) = true.
Proof.
  split; [exact ga_obtained|]. split; [exact ga_signs|]. split.
  { replace (mkCommit [PorProposal (PReInit w110reInit)] None) with (snd (fst w110)) by (vm_compute; reflexivity).
    apply acceptedPublic_commit. rewrite w110_accepted. now destruct w110 as [[? ?] ?]. }
  split; [vm_compute; reflexivity|]. split; [repeat constructor|]. split; [vm_compute; reflexivity|]. split; vm_compute; reflexivity.
Qed.
