(** Exactly which messages are accepted: C112. *)
From Verif Require Import ExactSamples.

(** ** C112 *)
Theorem C112_application_data :
  forall (C : crypto) g raw ac d now, crypto_ok C -> known_suite (gc_cipherSuite (gr_context g)) ->
  carries g raw ac -> modest g ac -> fc_body (ac_content ac) = BApplication d ->
  ((exists g' r, unmarshalAndProcessMessage g raw now = (g', Ok r)) <-> authentic g ac /\ ac_wireFormat ac = 2).
Proof. exact @data_accepted_iff. Qed.
Print Assumptions C112_application_data.

Theorem C112_proposals :
  forall (C : crypto) g raw ac p now, crypto_ok C -> known_suite (gc_cipherSuite (gr_context g)) ->
  carries g raw ac -> modest g ac -> fc_body (ac_content ac) = BProposal p ->
  ((exists g' r, unmarshalAndProcessMessage g raw now = (g', Ok r)) <-> authentic g ac /\ tagged g raw).
Proof. exact @proposals_accepted_iff. Qed.
Print Assumptions C112_proposals.

Theorem C112_commits_without_a_path :
  forall (C : crypto) g raw ac c now, crypto_ok C -> obtained g -> known_suite (gc_cipherSuite (gr_context g)) ->
  carries g raw ac -> modest g ac -> fc_body (ac_content ac) = BCommit c -> c_path c = None ->
  ((exists g' r, unmarshalAndProcessMessage g raw now = (g', Ok r)) <->
   authentic g ac /\ tagged g raw /\
   exists li ps t, acceptable_commit g ac c li ps /\ after_proposals (gr_value g) ps t /\ encodable t).
Proof. exact @commits_accepted_iff. Qed.
Print Assumptions C112_commits_without_a_path.

(** With a path, if the tree can be encoded and nobody lists a type of
    credential twice: the path is checked and merged, and the member reads a
    commit secret in it. *)
Theorem C112_commits_with_a_path :
  forall (C : crypto) g raw ac c up now, crypto_ok C -> obtained g -> known_suite (gc_cipherSuite (gr_context g)) ->
  carries g raw ac -> modest g ac -> fc_body (ac_content ac) = BCommit c -> c_path c = Some up -> tame g c ->
  ((exists g' r, unmarshalAndProcessMessage g raw now = (g', Ok r)) <->
   authentic g ac /\ tagged g raw /\
   exists li ps k t t' z, acceptable_commit g ac c li ps /\ acceptable_path g ps li up k t t' z).
Proof. exact @path_commits_accepted_iff. Qed.
Print Assumptions C112_commits_with_a_path.

(** What is necessary whatever the sizes and the tree *)
Theorem C112_accepted_commits :
  forall (C : crypto) g raw now ac c g', obtained g -> accepts_commit g raw now ac c g' ->
  authentic g ac /\ tagged g raw /\
  exists li ps t, acceptable_commit g ac c li ps /\ after_proposals (gr_value g) ps t /\
    match c_path c with
    | None => gr_value g' = t /\ encodable t
    | Some up => path_checked (gc_cipherSuite (gr_context g)) (gc_groupID (gr_context g)) t li up
    end.
Proof. exact @accepted_acceptable. Qed.
Print Assumptions C112_accepted_commits.

Theorem C112_nothing_else :
  forall (C : crypto) g raw now, (forall ac, ~ carries g raw ac) ->
  fst (unmarshalAndProcessMessage g raw now) = g /\ rejected (snd (unmarshalAndProcessMessage g raw now)).
Proof. exact @nothing_else_accepted. Qed.
Print Assumptions C112_nothing_else.

(** Bob commits a reinit proposal without a path, and Alice accepts it; with one
    byte changed, Alice rejects it. *)
Example C112_example :
  @obtained toy ga /\ @carries toy ga w110raw ac112 /\ modest ga ac112 /\ fc_body (ac_content ac112) = BCommit c112 /\ c_path c112 = None /\
  @authentic toy ga ac112 /\ @tagged toy ga w110raw /\
  (exists t, @acceptable_commit toy ga ac112 c112 1 [(PReInit w110reInit, 1)] /\ after_proposals (gr_value ga) [(PReInit w110reInit, 1)] t /\ encodable t) /\
  (exists ac, @carries toy ga bad112 ac /\ ~ @tagged toy ga bad112).
Proof. exact exact_example. Qed.
Example C112_path_example :
  crypto_ok toy /\ known_suite (gc_cipherSuite (gr_context ga)) /\ @carries toy ga w111raw ac111 /\ modest ga ac111 /\
  fc_body (ac_content ac111) = BCommit c111 /\ c_path c111 = Some (fst (fst made111)) /\ tame ga c111 /\
  @authentic toy ga ac111 /\ @tagged toy ga w111raw /\
  exists li ps k t t' z, @acceptable_commit toy ga ac111 c111 li ps /\ @acceptable_path toy ga ps li (fst (fst made111)) k t t' z.
Proof. exact exact_path_example. Qed.
