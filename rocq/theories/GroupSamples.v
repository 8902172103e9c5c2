(** Concrete runs of groups, for examples and counterexamples. *)
From Coq Require Import Lia.
From Verif Require Export JoinSamples ObtainedFacts.

Lemma obtained_hear g raw : @obtained toy g -> @obtained toy (hear g raw).
Proof. intros H. unfold hear. destruct (unmarshalAndProcessMessage g raw clock) as [g' r] eqn:E. exact (obtained_message g raw clock g' r H E). Qed.

Lemma g0_obtained : @obtained toy g0.
Proof. apply (obtained_created (str "grp") alice (zeros 32)). vm_compute. reflexivity. Qed.
Lemma ga_obtained : @obtained toy ga.
Proof.
  assert (H : @obtained toy (fst firstWelcome)).
  { apply (obtained_welcome g0 [kpp_public bob; kpp_public carol] [] [] [str "x"; str "y"] (str "abcd") _ (Ok (snd firstWelcome)) g0_obtained). vm_compute. reflexivity. }
  apply (obtained_hear _ (snd (snd firstWelcome))) in H. replace ga with (hear (fst firstWelcome) (snd (snd firstWelcome))); [exact H|vm_compute; reflexivity].
Qed.
Lemma gb_obtained : @obtained toy gb.
Proof. apply (obtained_joined (fst (snd firstWelcome)) bob clock). vm_compute. reflexivity. Qed.
Lemma gc_obtained : @obtained toy gc.
Proof. apply (obtained_joined (fst (snd firstWelcome)) carol clock). vm_compute. reflexivity. Qed.
Lemma aliceAfterPath_obtained : @obtained toy aliceAfterPath.
Proof. replace aliceAfterPath with (hear ga w55raw); [exact (obtained_hear _ _ ga_obtained)|vm_compute; reflexivity]. Qed.
Lemma carolAfterPath_obtained : @obtained toy carolAfterPath.
Proof. replace carolAfterPath with (hear gc w55raw); [exact (obtained_hear _ _ gc_obtained)|vm_compute; reflexivity]. Qed.

(** *** Alice invites Dave after Bob's commit with a path. *)
Lemma welcome_changes_group : exists (C : crypto) g kps rs ri rh rg g' w raw,
  crypto_ok C /\ obtained g /\ createWelcome g kps rs ri rh rg = (g', Ok (w, raw)) /\ gr_value g' <> gr_value g.
Proof.
  exists toy, aliceAfterPath, [kpp_public dave], [], [], [str "z"], (str "efgh"), (fst thirdWelcome), (fst (snd thirdWelcome)), (snd (snd thirdWelcome)).
  split; [exact toy_ok|]. split; [exact aliceAfterPath_obtained|]. split; [vm_compute; reflexivity|vm_compute; discriminate].
Qed.

(** *** Carol then sends a commit that adds Dave with an unusable path. *)
Definition badPathRaw : bytes := Eval vm_compute in
  getOr [] (@sendPublic toy carolAfterPath 2
    (BCommit (mkCommit [PorProposal (PAdd (kpp_public dave))] (Some (mkUpdatePath (kp_leafNode (kpp_public carol)) [])))) [] (str "tag")).
Definition afterBadPath : group * res (option bytes) := Eval vm_compute in @unmarshalAndProcessMessage toy aliceAfterPath badPathRaw clock.

Lemma error_changes_group : exists (C : crypto) g raw now g' e,
  crypto_ok C /\ obtained g /\ unmarshalAndProcessMessage g raw now = (g', Err e) /\ gr_value g' <> gr_value g.
Proof.
  exists toy, aliceAfterPath, badPathRaw, clock, (fst afterBadPath), "mls: commit path leaf node source must be commit"%string.
  split; [exact toy_ok|]. split; [exact aliceAfterPath_obtained|]. split; [vm_compute; reflexivity|vm_compute; discriminate].
Qed.

(** *** Alice and Carol process Alice's commit. *)
Definition thirdRaw : bytes := Eval vm_compute in snd (snd thirdWelcome).
Definition aliceThird : group := Eval vm_compute in hear (fst thirdWelcome) thirdRaw.
Definition carolThird : group := Eval vm_compute in hear carolAfterPath thirdRaw.
Lemma dave_may_join_later : @may_join toy aliceAfterPath [kpp_public dave].
Proof.
  refine (proj1 (generated_may_join (C := toy) aliceAfterPath [dave] toy_ok _ _ _ _ _)).
  - constructor; [exact dave_generated|constructor].
  - reflexivity.
  - apply basicb_ok. vm_compute. reflexivity.
  - apply distinctBytes_ok. vm_compute. reflexivity.
  - apply distinctBytes_ok. vm_compute. reflexivity.
Qed.
Lemma members_diverge : exists (C : crypto) g m kps rs ri rh rg g1 w raw now g2 m2,
  crypto_ok C /\ obtained g /\ obtained m /\ agree g m /\ may_join g kps /\
  createWelcome g kps rs ri rh rg = (g1, Ok (w, raw)) /\
  unmarshalAndProcessMessage g1 raw now = (g2, Ok None) /\ unmarshalAndProcessMessage m raw now = (m2, Ok None) /\
  gc_treeHash (gr_context g2) <> gc_treeHash (gr_context m2) /\ gr_epochSecret g2 <> gr_epochSecret m2.
Proof.
  exists toy, aliceAfterPath, carolAfterPath, [kpp_public dave], [], [], [str "z"], (str "efgh"), (fst thirdWelcome), (fst (snd thirdWelcome)), thirdRaw, clock, aliceThird, carolThird.
  splits.
  - exact toy_ok.
  - exact aliceAfterPath_obtained.
  - exact carolAfterPath_obtained.
  - exact afterPath_agree.
  - exact dave_may_join_later.
  - vm_compute. reflexivity.
  - vm_compute. reflexivity.
  - vm_compute. reflexivity.
  - vm_compute. discriminate.
  - vm_compute. discriminate.
Qed.

(** *** Erin is invited forty days later. *)
Definition lateClock : gotime := unixTime 2003456100.
Definition erin : keyPairPackage := Eval vm_compute in getOr noKeys
  (@generateKeyPairPackage toy 1 (mkCredential 1 (str "erin") []) (unixTime 2003456000) (unixTime 2003456000)
    (str "erin init") (str "erin enc") (str "erin sig") [] []).
Lemma erin_generated : @generated toy 1 erin.
Proof.
  split; [|vm_compute; discriminate].
  exists (mkCredential 1 (str "erin") []), (unixTime 2003456000), (unixTime 2003456000), (str "erin init"), (str "erin enc"), (str "erin sig"), [], [].
  split; [reflexivity|]. split; [reflexivity|]. vm_compute. reflexivity.
Qed.
Definition lateWelcome : group * (welcome * bytes) := Eval vm_compute in
  let (g, r) := @createWelcome toy gb [kpp_public erin] [] [] [str "z"] (str "efgh") in (g, getOr (noWelcome, []) r).
Lemma late_join_refused : exists (C : crypto) g kps rs ri rh rg g1 w raw kpp now e,
  crypto_ok C /\ obtained g /\ in_order g /\ may_join g kps /\ In (kpp_public kpp) kps /\ holds_private_keys kpp /\
  current_leaf now (kp_leafNode (kpp_public kpp)) /\
  createWelcome g kps rs ri rh rg = (g1, Ok (w, raw)) /\ groupFromWelcome w kpp now = Err e.
Proof.
  exists toy, gb, [kpp_public erin], [], [], [str "z"], (str "efgh"), (fst lateWelcome), (fst (snd lateWelcome)), (snd (snd lateWelcome)), erin, lateClock,
    "mls: lifetime verification failed"%string.
  destruct (generated_may_join (C := toy) gb [erin] toy_ok) as [Hm Hk].
  { constructor; [exact erin_generated|constructor]. }
  { reflexivity. }
  { apply basicb_ok. vm_compute. reflexivity. }
  { apply distinctBytes_ok. vm_compute. reflexivity. }
  { apply distinctBytes_ok. vm_compute. reflexivity. }
  splits.
  - exact toy_ok.
  - exact gb_obtained.
  - destruct trio_together as (e & _ & F). apply Forall_inv_tail, Forall_inv in F. apply F.
  - exact Hm.
  - now left.
  - now apply Forall_inv in Hk.
  - apply (Forall_inv (P := current_leaf lateClock) (l := [])). apply currentb_ok. vm_compute. reflexivity.
  - vm_compute. reflexivity.
  - vm_compute. reflexivity.
Qed.

(** *** A founder who lists the basic credential type twice invites someone who
    does not list it, and Bob. *)
Definition listerPackage (name : string) (creds : list N) : keyPackage :=
  mkKeyPackage 1 1 (pad 32 (str (name ++ " init"))) (lister name creds) [] [].
Definition listerFounder : group := Eval vm_compute in getOr noGroup (@createGroup toy (str "grp")
  (mkKeyPairPackage (listerPackage "m" [1; 1]) (pad 32 (str "m init")) (pad 32 (str "m")) (pad 32 (str "m"))) (zeros 32)).
Definition listerWelcome : welcome := Eval vm_compute in
  fst (getOr (noWelcome, []) (snd (@createWelcome toy listerFounder [listerPackage "b" []; kpp_public bob] [] [] [str "x"; str "y"] (str "abcd")))).
Definition listerGroup : group := Eval vm_compute in getOr noGroup (@groupFromWelcome toy listerWelcome bob clock).
Lemma joined_without_integrity : exists (C : crypto) w kpp now g,
  crypto_ok C /\ later_than_1970 now /\ groupFromWelcome w kpp now = Ok g /\ ~ credentials_supported (gr_value g).
Proof.
  exists toy, listerWelcome, bob, clock, listerGroup. split; [exact toy_ok|]. split; [exact clock_later|]. split; [vm_compute; reflexivity|].
  intros H. specialize (H 0 _ eq_refl 1 _ eq_refl). vm_compute in H. exact H.
Qed.

(** *** Messages and Welcomes that make the library panic *)
(** No member sent this one. *)
Definition panicRaw : bytes := Eval vm_compute in
  getOr [] (putMlsMessage (MPublic (mkPublicMessage (mkFramedContent (str "grp") 1 (SMember 100) [] (BProposal (PRemove 0))) (mkAuthData [] []) []))).
Lemma message_panics : exists (C : crypto) g raw now g' p, crypto_ok C /\ obtained g /\ unmarshalAndProcessMessage g raw now = (g', Panic p).
Proof.
  exists toy, ga, panicRaw, clock, ga, "index out of range"%string. split; [exact toy_ok|]. split; [exact ga_obtained|]. vm_compute. reflexivity.
Qed.

(** *** A Welcome anyone can make, for a group that does not exist *)
Definition forgeWelcome (gi : groupInfo) (s : groupSecrets) (kp : keyPackage) : res welcome :=
  let! psk := @extractPSKSecret toy 1 [] [] in
  let! egi := @groupInfoEncrypt toy gi (gs_joinerSecret s) psk in
  let! secrets := @encryptSecretsFor toy 1 s egi [kp] [str "x"] in
  Ok (mkWelcome 1 secrets egi).
Definition panicWelcome : welcome := Eval vm_compute in getOr noWelcome
  (forgeWelcome (mkGroupInfo (mkGroupContext 1 1 (str "grp") 0 [] [] []) [mkExtension 2 (getOr [] (putRatchetTree [Some (NLeaf (kp_leafNode (kpp_public bob)))]))] [] 100 [])
     (mkGroupSecrets (zeros 32) None []) (kpp_public bob)).
Definition panicWelcomeRaw : bytes := Eval vm_compute in getOr [] (putMlsMessage (MWelcome panicWelcome)).
Lemma welcome_panics : exists (C : crypto) raw w kpp now p,
  crypto_ok C /\ unmarshalWelcome raw = Ok w /\ w_cipherSuite w = 1 /\ generated 1 kpp /\ groupFromWelcome w kpp now = Panic p.
Proof.
  exists toy, panicWelcomeRaw, panicWelcome, bob, clock, "index out of range"%string. split; [exact toy_ok|]. split; [vm_compute; reflexivity|]. split; [reflexivity|].
  split; [exact bob_generated|]. vm_compute. reflexivity.
Qed.
