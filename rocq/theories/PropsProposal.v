(** Properties of proposals and commits: C24-C27, C55-C57, C61, C63, C64. *)
From Verif Require Import Witness.

(** ** C24 *)
Theorem C24_list_verification_decides_the_rule :
  forall ps committer, Forall wf_pskID (pskIds ps) ->
  (verifyProposalList (map fst ps) (map snd ps) committer = Ok tt <-> proposal_rule ps committer /\ psk_ids_encodable ps).
Proof. exact verifyProposalList_ok. Qed.
Print Assumptions C24_list_verification_decides_the_rule.

Example C24_example :
  (exists ps, Forall wf_pskID (pskIds ps) /\ length ps = 4%nat /\ proposal_rule ps 0 /\ psk_ids_encodable ps) /\
  verifyProposalList [PRemove 1; PRemove 2; PAdd (kpp_public dave)] [0; 0; 1] 0 = Ok tt /\
  is_ok (verifyProposalList [PRemove 1; PRemove 1] [0; 0] 0) = false /\
  is_ok (verifyProposalList [PAdd (kpp_public dave); PAdd (kpp_public dave)] [0; 0] 0) = false /\
  is_ok (verifyProposalList [PRemove 0] [0] 0) = false.
Proof.
  split; [|repeat split; vm_compute; reflexivity].
  exists [(PRemove 1, 0); (PUpdate (kp_leafNode (kpp_public bob)), 2); (PPsk (PskExternal (str "id") (str "nonce")), 2);
          (PAdd (kpp_public dave), 0)].
  assert (W : Forall wf_pskID [PskExternal (str "id") (str "nonce")]) by (repeat constructor).
  split; [exact W|]. split; [reflexivity|]. apply verifyProposalList_ok; [exact W|]. vm_compute. reflexivity.
Qed.

(** ** C25 *)
Theorem C25_resolution_keeps_order_and_senders :
  forall l committer pending ps,
  resolveProposals l committer pending = Ok ps <-> Forall2 (stands_for committer pending) l ps.
Proof. exact resolveProposals_spec. Qed.
Print Assumptions C25_resolution_keeps_order_and_senders.

Theorem C25_resolution_fails_exactly_on_unknown_references :
  forall l committer pending,
  no_crash (resolveProposals l committer pending) /\
  ((exists e, resolveProposals l committer pending = Err e) <->
   exists ref, In (PorReference ref) l /\ ~ In ref (map pp_ref pending)).
Proof. exact (fun l c p => conj (resolveProposals_nc l c p) (resolveProposals_err l c p)). Qed.
Print Assumptions C25_resolution_fails_exactly_on_unknown_references.

Example C25_example :
  resolveProposals [PorReference (str "b"); PorProposal (PRemove 7); PorReference (str "a")] 9
    [mkPendingProposal (str "a") (PRemove 1) 3; mkPendingProposal (str "b") (PRemove 2) 4; mkPendingProposal (str "a") (PRemove 5) 6]
  = Ok [(PRemove 2, 4); (PRemove 7, 9); (PRemove 1, 3)] /\
  is_ok (resolveProposals [PorReference (str "c")] 9 [mkPendingProposal (str "a") (PRemove 1) 3]) = false.
Proof. split; reflexivity. Qed.

(** ** C26 *)
Theorem C26_commit_without_required_path_is_rejected :
  forall (C : crypto) g raw now ac c li ps,
  carries g raw ac -> fc_body (ac_content ac) = BCommit c -> fc_sender (ac_content ac) = SMember li ->
  c_path c = None -> commits g li c ps ->
  (ps = [] \/ exists p s, In (p, s) ps /\ requires_path p) ->
  fst (unmarshalAndProcessMessage g raw now) = g /\ rejected (snd (unmarshalAndProcessMessage g raw now)).
Proof. exact @missing_path_member. Qed.
Print Assumptions C26_commit_without_required_path_is_rejected.

Example C26_example :
  exists raw e, @sendPublic toy gb 1 (BCommit (mkCommit [PorProposal (PRemove 2)] None)) [] (str "tag") = Ok raw /\
    @unmarshalAndProcessMessage toy ga raw clock = (ga, Err e).
Proof. eexists. eexists. split; [vm_compute; reflexivity|vm_compute; reflexivity]. Qed.

(** ** C27 *)
(** The claim holds as long as leaf indices are below 2^31. *)
Theorem C27_no_self_update_and_no_double_target_partial :
  forall (C : crypto) g raw now ac c g' li ps,
  accepts_commit g raw now ac c g' -> fc_sender (ac_content ac) = SMember li -> commits g li c ps ->
  (forall t, In t (li :: changedLeaves ps) -> t < 2 ^ 31) ->
  NoDup (map leaf_position (changedLeaves ps)) /\ ~ In (leaf_position li) (map leaf_position (changedLeaves ps)).
Proof. exact @commit_targets. Qed.
Print Assumptions C27_no_self_update_and_no_double_target_partial.

(** It fails for 32-bit indices, since 2 * index wraps around. *)
Theorem C27_committer_applies_own_update_refuted :
  exists (C : crypto) g raw now ac c g' li ps leaf s,
    crypto_ok C /\ accepts_commit g raw now ac c g' /\ fc_sender (ac_content ac) = SMember li /\ commits g li c ps /\
    In (PUpdate leaf, s) ps /\ leaf_position s = leaf_position li.
Proof. exact commit_from_own_update. Qed.
Print Assumptions C27_committer_applies_own_update_refuted.

Theorem C27_one_leaf_updated_and_removed_refuted :
  exists (C : crypto) g raw now ac c g' li ps leaf s r s',
    crypto_ok C /\ accepts_commit g raw now ac c g' /\ fc_sender (ac_content ac) = SMember li /\ commits g li c ps /\
    In (PUpdate leaf, s) ps /\ In (PRemove r, s') ps /\ leaf_position s = leaf_position r.
Proof. exact commit_with_two_targets. Qed.
Print Assumptions C27_one_leaf_updated_and_removed_refuted.

Example C27_example :
  exists raw m c g', @sendPathCommit toy gb 1 [PorProposal (PRemove 2)] [] (pad 32 (str "new leaf")) [] (pad 32 (str "seed")) (str "r") = Ok raw /\
    acceptedPublic ga raw = Some (m, c, g') /\ fc_sender (pubm_content m) = SMember 1 /\ c_proposals c = [PorProposal (PRemove 2)].
Proof. eexists. eexists. eexists. eexists. split; [vm_compute; reflexivity|]. split; [vm_compute; reflexivity|]. split; reflexivity. Qed.

(** ** C55 *)
Theorem C55_commits_never_change_extensions_partial :
  forall (C : crypto) g raw now ac c g',
  accepts_commit g raw now ac c g' -> gc_extensions (gr_context g') = gc_extensions (gr_context g).
Proof. exact @commit_keeps_extensions. Qed.
Print Assumptions C55_commits_never_change_extensions_partial.

Theorem C55_proposed_extensions_do_not_take_effect_refuted :
  exists (C : crypto) g raw now ac c g' exts,
    crypto_ok C /\ accepts_commit g raw now ac c g' /\
    c_proposals c = [PorProposal (PGroupContextExtensions exts)] /\ gc_extensions (gr_context g') <> exts.
Proof. exact extensions_ignored. Qed.
Print Assumptions C55_proposed_extensions_do_not_take_effect_refuted.

Example C55_example : exists w, acceptedPublic ga w55raw = Some w.
Proof. eexists. exact w55_accepted. Qed.

(** ** C56 *)
(** The internal processCommit mixes in the PSKs it is given... *)
Theorem C56_given_psks_enter_the_epoch_secret_partial :
  forall (C : crypto) g ac ids psks now g', processCommit g ac ids psks now = (g', Ok tt) ->
  exists s joiner,
    extractPSKSecret (gc_cipherSuite (gr_context g)) ids psks = Ok s /\ gr_pskSecret g' = s /\
    extractEpochSecret (gr_context g') joiner s = Ok (gr_epochSecret g').
Proof. exact @commit_psk. Qed.
Print Assumptions C56_given_psks_enter_the_epoch_secret_partial.

(** ... but UnmarshalAndProcessMessage never gives it any. *)
Theorem C56_proposed_psk_is_not_mixed_in_refuted :
  exists (C : crypto) g raw now ac c g' id psk s,
    crypto_ok C /\ accepts_commit g raw now ac c g' /\ c_proposals c = [PorProposal (PPsk id)] /\
    extractPSKSecret (gc_cipherSuite (gr_context g)) [id] [psk] = Ok s /\ gr_pskSecret g' <> s /\ gr_pskSecret g' = zeros 32.
Proof. exact psk_ignored. Qed.
Print Assumptions C56_proposed_psk_is_not_mixed_in_refuted.

Example C56_example :
  exists g', @processCommit toy ga (publicContent (fst (fst w56))) [w56id] [str "psk"] clock = (g', Ok tt) /\
    gr_pskSecret g' <> zeros 32 /\ gr_epochSecret g' <> gr_epochSecret (snd w56).
Proof. eexists. split; [vm_compute; reflexivity|]. split; vm_compute; discriminate. Qed.

(** ** C57 *)
Theorem C57_added_key_packages_are_valid :
  forall (C : crypto) g raw now ac c g' li, accepts_commit g raw now ac c g' -> fc_sender (ac_content ac) = SMember li ->
  exists ps, commits g li c ps /\ forall k s, In (PAdd k, s) ps -> addable (gr_context g) k.
Proof. exact @commit_added_valid_member. Qed.
Print Assumptions C57_added_key_packages_are_valid.

Example C57_example :
  exists w, acceptedPublic ga w46raw = Some w /\ c_proposals (snd (fst w)) = [PorProposal (PAdd (kpp_public dave))].
Proof. eexists. split; [exact w46_accepted|reflexivity]. Qed.

(** ** C61 *)
Theorem C61_supported_cipher_suites :
  forall cs, supported cs = true <-> cs = 1 \/ cs = 2 \/ cs = 3 \/ cs = 7.
Proof. exact supported_iff. Qed.
Print Assumptions C61_supported_cipher_suites.

Example C61_example : supported 7 = true /\ supported 4 = false /\ supported 61440 = false.
Proof. repeat split; reflexivity. Qed.

(** ** C63 *)
Theorem C63_at_most_one_reinit_or_branch_psk :
  forall s, verifySingleReinitOrBranchPSK s = true <->
  forall i j a b, nth_error (gs_psks s) i = Some a -> nth_error (gs_psks s) j = Some b ->
                  reinitOrBranch a -> reinitOrBranch b -> i = j.
Proof. exact singlePSK_pairs. Qed.
Print Assumptions C63_at_most_one_reinit_or_branch_psk.

Theorem C63_welcome_with_psk_is_refused :
  forall (C : crypto) w kpp now ref s,
  keyPackageRef (kpp_public kpp) = Ok ref -> decryptGroupSecrets w ref (kpp_initKey kpp) = Ok s -> gs_psks s <> [] ->
  exists e, groupFromWelcome w kpp now = Err e.
Proof. exact @welcome_with_psk_refused. Qed.
Print Assumptions C63_welcome_with_psk_is_refused.

Example C63_example :
  verifySingleReinitOrBranchPSK (mkGroupSecrets [] None [PskResumption 2 [] 0 []; PskExternal [] []; PskResumption 1 [] 0 []]) = true /\
  verifySingleReinitOrBranchPSK (mkGroupSecrets [] None [PskResumption 2 [] 0 []; PskExternal [] []; PskResumption 3 [] 0 []]) = false /\
  exists ref w, @keyPackageRef toy (kpp_public alice) = Ok ref /\
    @decryptGroupSecrets toy w ref (kpp_initKey alice) = Ok (mkGroupSecrets (str "j") None [PskExternal (str "id") (str "n")]).
Proof.
  split; [reflexivity|]. split; [reflexivity|].
  exists (getOr [] (@keyPackageRef toy (kpp_public alice))).
  exists (mkWelcome 1 [mkEncryptedGroupSecrets (getOr [] (@keyPackageRef toy (kpp_public alice)))
           (getOr (mkHpkeCiphertext [] []) (@groupSecretsEncrypt toy 1 (mkGroupSecrets (str "j") None [PskExternal (str "id") (str "n")])
              (kp_initKey (kpp_public alice)) (str "egi") []))] (str "egi")).
  split; vm_compute; reflexivity.
Qed.

(** ** C64 *)
Theorem C64_accepted_proposal_is_remembered :
  forall (C : crypto) g raw now ac p g' r,
  carries g raw ac -> fc_body (ac_content ac) = BProposal p -> unmarshalAndProcessMessage g raw now = (g', Ok r) ->
  r = None /\ same_but_pending g g' /\
  exists li, fc_sender (ac_content ac) = SMember li /\
    gr_pending g' = gr_pending g ++ [mkPendingProposal (ProposalRef (gc_cipherSuite (gr_context g)) ac) p li].
Proof. exact @proposal_accepted. Qed.
Print Assumptions C64_accepted_proposal_is_remembered.

Theorem C64_accepted_commit_empties_the_list :
  forall (C : crypto) g raw now ac c g', accepts_commit g raw now ac c g' -> gr_pending g' = [].
Proof. exact @commit_clears_pending. Qed.
Print Assumptions C64_accepted_commit_empties_the_list.

Example C64_example :
  exists g' pp, @unmarshalAndProcessMessage toy ga w27update clock = (g', Ok None) /\
    gr_pending g' = [pp] /\ pp_proposal pp = PUpdate (kp_leafNode (kpp_public dave)) /\ pp_sender pp = 2.
Proof. eexists. eexists. split; [vm_compute; reflexivity|]. split; [vm_compute; reflexivity|split; reflexivity]. Qed.
