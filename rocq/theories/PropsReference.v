(** Proposals committed by reference: C81, C82. *)
From Verif Require Import ReferenceSamples.

(** ** C81 *)
(** Nothing is assumed of the cryptography: [collide] has two different messages
    with one hash value. *)
Theorem C81_pending_proposals_were_signed_in_this_epoch :
  forall (C : crypto) g pp, obtained g -> In pp (gr_pending g) -> exists ac, remembers g pp ac.
Proof. exact @pending_are_authentic. Qed.
Print Assumptions C81_pending_proposals_were_signed_in_this_epoch.

Theorem C81_committed_proposals_are_rightly_attributed :
  forall (C : crypto) g li c ps p s, obtained g -> commits g li c ps -> In (p, s) ps -> rightly_committed g li c p s.
Proof. exact @committed_rightly. Qed.
Print Assumptions C81_committed_proposals_are_rightly_attributed.

Theorem C81_an_accepted_commit_carries_out_rightly_attributed_proposals :
  forall (C : crypto) g raw now ac c g', obtained g -> accepts_commit g raw now ac c g' ->
  exists li ps t, fc_sender (ac_content ac) = SMember li /\ commits g li c ps /\ (forall p s, In (p, s) ps -> rightly_committed g li c p s) /\
    after_proposals (gr_value g) ps t /\
    match c_path c with
    | None => gr_value g' = t
    | Some up => exists k, merged (gc_cipherSuite (gr_context g)) k t (gr_value g') (designated li) up
    end.
Proof. exact @accepted_rightly. Qed.
Print Assumptions C81_an_accepted_commit_carries_out_rightly_attributed_proposals.

Theorem C81_a_proposal_reference_stands_for_one_message :
  forall (C : crypto) cs ac1 ac2 r, wf_authenticatedContent ac1 -> wf_authenticatedContent ac2 ->
  generateProposalRef cs ac1 = Ok r -> generateProposalRef cs ac2 = Ok r -> ac1 = ac2 \/ collide (proposalQueries cs ac1) (proposalQueries cs ac2).
Proof. exact @proposal_refs_bind. Qed.
Print Assumptions C81_a_proposal_reference_stands_for_one_message.

Theorem C81_a_key_package_reference_stands_for_one_package :
  forall (C : crypto) k1 k2 r, hashOf (kp_cipherSuite k1) = hashOf (kp_cipherSuite k2) -> wf_keyPackage k1 -> wf_keyPackage k2 ->
  keyPackageRef k1 = Ok r -> keyPackageRef k2 = Ok r -> k1 = k2 \/ collide (keyPackageQueries k1) (keyPackageQueries k2).
Proof. exact @package_refs_bind. Qed.
Print Assumptions C81_a_key_package_reference_stands_for_one_package.

(** Bob commits Carol's proposal to remove Dave, and not the other one that Alice
    has heard. *)
Example C81_example :
  @obtained toy qa1 /\ In pp81 (gr_pending qa1) /\ lenN (gr_pending qa1) = 2 /\
  exists ac c, @accepts_commit toy qa1 commit81 clock ac c (snd w81) /\ fc_sender (ac_content ac) = SMember 1 /\
    commits qa1 1 c [(PRemove 3, 2)] /\ c_proposals c = [PorReference (pp_ref pp81)].
Proof. exact reference_example. Qed.
Example C81_example_references :
  wf_authenticatedContent (publicContent prop81m) /\ wf_authenticatedContent (publicContent other81m) /\ publicContent prop81m <> publicContent other81m /\
  (exists r, @generateProposalRef toy 1 (publicContent prop81m) = Ok r) /\ (exists r, @generateProposalRef toy 1 (publicContent other81m) = Ok r) /\
  (exists r, @keyPackageRef toy sampleKP = Ok r) /\ wf_keyPackage sampleKP.
Proof. exact binding_example. Qed.

(** ** C82 *)
Theorem C82_who_accepts_a_commit_agrees_whatever_is_pending :
  forall (C : crypto) g m raw now now' ac ac' c c' g' m', obtained g -> obtained m -> agree g m ->
  accepts_commit g raw now ac c g' -> accepts_commit m raw now' ac' c' m' ->
  ac' = ac /\ c' = c /\ (agree g' m' \/ keys_collide g m c g' \/ references_collide g m c).
Proof. exact @same_commit_agrees. Qed.
Print Assumptions C82_who_accepts_a_commit_agrees_whatever_is_pending.

Theorem C82_who_accepts_the_same_commits_agrees :
  forall (C : crypto) g m g' m', obtained g -> obtained m -> agree g m -> same_commits g m g' m' ->
  agree g' m' \/
  exists g1 m1 raw now now' ac c g2 m2, same_commits g m g1 m1 /\ agree g1 m1 /\
    accepts_commit g1 raw now ac c g2 /\ accepts_commit m1 raw now' ac c m2 /\ (keys_collide g1 m1 c g2 \/ references_collide g1 m1 c).
Proof. exact @same_commits_agree. Qed.
Print Assumptions C82_who_accepts_the_same_commits_agrees.

(** Alice hears two proposals, Carol one, and both accept Bob's commit. *)
Example C82_example :
  @obtained toy qa /\ @obtained toy qc /\ agree qa qc /\ @same_commits toy qa qc (snd w81) (snd w81c) /\
  gr_pending qa1 <> gr_pending qc1 /\ gr_epochSecret (snd w81) <> gr_epochSecret qa /\ gr_value (snd w81) <> gr_value qa.
Proof. exact same_commits_example. Qed.
