(** What holds of C41 and C42: when processing a message, or joining a group,
    neither panics nor hangs. *)
From Verif Require Import CrashSamples PanicFacts.

(** ** C41 *)
(** Missing: messages of senders outside of the tree, commits that remove who
    is not a member or overfill the tree, ECDSA keys that are not points, and the
    suites that are described but not supported. *)
Theorem C41_messages_do_not_panic_partial :
  forall (C : crypto) g d raw now, crypto_ok C -> supported (gc_cipherSuite (gr_context g)) = true ->
  cipherSuiteDescriptions (gc_cipherSuite (gr_context g)) = Some d -> obtained g ->
  keys_usable d g raw -> sender_in_tree g raw -> commit_fits g raw -> no_crash (snd (unmarshalAndProcessMessage g raw now)).
Proof. exact @supported_no_crash. Qed.
Print Assumptions C41_messages_do_not_panic_partial.

Example C41_suites : forall (C : crypto) cs, In cs [1; 2; 3; 7] -> supported cs = true /\ exists d, cipherSuiteDescriptions cs = Some d /\
  forall pub, (sd_sig d = Ed25519 \/ cr_ecdsaPubValid C (sd_sig d) pub = true) -> usable_key (C := C) d pub.
Proof. exact supported_suites. Qed.
(** With Ed25519, and with ECDSA *)
Example C41_example : gc_cipherSuite (gr_context ga) = 1 /\ @obtained toy ga /\
  keys_usable (C := toy) (mkSuiteDesc SHA256 X25519 SHA256 AES128GCM Ed25519) ga w51raw /\ sender_in_tree (C := toy) ga w51raw /\ commit_fits (C := toy) ga w51raw /\
  @unmarshalAndProcessMessage toy ga w51raw clock = (snd w51, Ok None).
Proof. split; [reflexivity|]. split; [exact ga_obtained|]. split; [exact usable51|]. split; [exact sender51|]. split; [exact fits51|vm_compute; reflexivity]. Qed.
Example C41_example_ecdsa : gc_cipherSuite (gr_context g2) = 2 /\ @obtained toy g2 /\
  keys_usable (C := toy) d2 g2 raw2 /\ sender_in_tree (C := toy) g2 raw2 /\ commit_fits (C := toy) g2 raw2 /\
  snd (@unmarshalAndProcessMessage toy g2 raw2 clock) = Ok None.
Proof. destruct ecdsa_example as (A & B & D). split; [reflexivity|]. split; [exact g2_obtained|]. split; [exact A|]. split; [exact B|]. split; [exact D|vm_compute; reflexivity]. Qed.

(** Unusable keys do make members panic: a commit that adds a key package whose
    ECDSA key is not a point *)
Theorem C41_unusable_keys_panic_refuted :
  exists (C : crypto) g raw now p, crypto_ok C /\ supported (gc_cipherSuite (gr_context g)) = true /\ obtained g /\
  sender_in_tree g raw /\ commit_fits g raw /\ unmarshalAndProcessMessage g raw now = (g, Panic p).
Proof. exact unusable_refuted. Qed.
Print Assumptions C41_unusable_keys_panic_refuted.

(** One message makes every member panic, in any group with this ID and epoch:
    who sends it needs no key. *)
Theorem C41_one_message_makes_all_members_panic_refuted :
  forall gid epoch, lenN gid < 2 ^ 30 -> epoch < 2 ^ 64 ->
  exists raw, forall (C : crypto) g now, gc_groupID (gr_context g) = gid -> gc_epoch (gr_context g) = epoch -> lenN (gr_tree g) < 2 ^ 32 - 1 ->
    unmarshalAndProcessMessage g raw now = (g, Panic "index out of range").
Proof. exact one_message_for_all. Qed.
Print Assumptions C41_one_message_makes_all_members_panic_refuted.

(** Every public message of the group and epoch that names a sender outside of
    the tree does. *)
Theorem C41_senders_outside_of_the_tree_make_members_panic_refuted :
  forall (C : crypto) g raw m li now, unmarshal getMlsMessage raw = Ok (MPublic m) ->
  fc_groupID (pubm_content m) = gc_groupID (gr_context g) -> fc_epoch (pubm_content m) = gc_epoch (gr_context g) ->
  fc_sender (pubm_content m) = SMember li -> lenN (gr_tree g) <= 2 * designated li ->
  unmarshalAndProcessMessage g raw now = (g, Panic "index out of range").
Proof. exact @outside_always_panics. Qed.
Print Assumptions C41_senders_outside_of_the_tree_make_members_panic_refuted.

Example C41_example_outside : lenN (gr_tree ga) = 7 /\ lenN (gc_groupID (gr_context ga)) < 2 ^ 30 /\ gc_epoch (gr_context ga) < 2 ^ 64.
Proof. split; [reflexivity|]. split; vm_compute; reflexivity. Qed.

(** ** C42 *)
(** Missing: Welcomes whose contents, once opened, do not fit. *)
Theorem C42_welcomes_do_not_panic_partial :
  forall (C : crypto) w kpp now d0 d, crypto_ok C -> wf_keyPackage (kpp_public kpp) ->
  cipherSuiteDescriptions (kp_cipherSuite (kpp_public kpp)) = Some d0 -> cipherSuiteDescriptions (w_cipherSuite w) = Some d ->
  (forall gs gi t, opens_to w kpp gs gi t -> welcome_fits kpp gs gi t) -> no_crash (groupFromWelcome w kpp now).
Proof. exact @welcome_no_crash. Qed.
Print Assumptions C42_welcomes_do_not_panic_partial.

Example C42_example : (forall gs gi t, @opens_to toy wfit dave gs gi t -> @welcome_fits toy dave gs gi t) /\
  (exists gs gi t, @opens_to toy wfit dave gs gi t /\ gs_pathSecret gs <> None) /\ is_ok (@groupFromWelcome toy wfit dave clock) = true.
Proof.
  split; [exact fits_wfit|]. split; [|vm_compute; reflexivity].
  exists (mkGroupSecrets (zeros 32) (Some seed52) []), (gi52 t52c'), t52c'. split; [|discriminate].
  exists (getOr [] (@keyPackageRef toy (kpp_public dave))), (getOr [] (@extractPSKSecret toy 1 [] [])), (getOr [] (putRatchetTree t52c')).
  splits; vm_compute; reflexivity.
Qed.

(** Whoever has a key package can make its owner panic, without any key. *)
Theorem C42_a_key_package_is_enough_to_make_its_owner_panic_refuted :
  forall (C : crypto) kp ref, crypto_ok C -> keyPackageRef kp = Ok ref ->
  exists raw w, unmarshalWelcome raw = Ok w /\ forall kpp now, kpp_public kpp = kp -> groupFromWelcome w kpp now = Panic "mls: invalid cipher suite".
Proof. exact one_welcome_for_a_key_package. Qed.
Print Assumptions C42_a_key_package_is_enough_to_make_its_owner_panic_refuted.

Example C42_example_stranger : is_ok (@keyPackageRef toy (kpp_public dave)) = true /\
  @groupFromWelcome toy (fromStranger (getOr [] (@keyPackageRef toy (kpp_public dave)))) dave clock = Panic "mls: invalid cipher suite".
Proof. split; vm_compute; reflexivity. Qed.
