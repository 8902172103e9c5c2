(** Properties of processing messages: C34-C40, C43, C46, C58, C62. *)
From Verif Require Import Witness.

(** ** C34 *)
Theorem C34_application_data_leaves_the_group_unchanged :
  forall (C : crypto) g raw now g' d, unmarshalAndProcessMessage g raw now = (g', Ok (Some d)) -> g' = g.
Proof. exact @application_data_unchanged. Qed.
Print Assumptions C34_application_data_leaves_the_group_unchanged.

Example C34_example : @unmarshalAndProcessMessage toy ga w35raw clock = (ga, Ok (Some (str "hello"))).
Proof. vm_compute. reflexivity. Qed.

(** ** C35 *)
(** Processing application data never changes the group (C34), so replays are
    always delivered. *)
Theorem C35_replays_are_always_delivered_partial :
  forall (C : crypto) g raw now g' d, unmarshalAndProcessMessage g raw now = (g', Ok (Some d)) ->
  unmarshalAndProcessMessage g' raw now = (g', Ok (Some d)).
Proof. exact @replay_is_delivered. Qed.
Print Assumptions C35_replays_are_always_delivered_partial.

Theorem C35_replay_is_delivered_refuted :
  exists (C : crypto) g raw now data,
    crypto_ok C /\ unmarshalAndProcessMessage g raw now = (g, Ok (Some data)) /\ data <> [] /\
    unmarshalAndProcessMessage (fst (unmarshalAndProcessMessage g raw now)) raw now = (g, Ok (Some data)).
Proof. exact replay_delivered. Qed.
Print Assumptions C35_replay_is_delivered_refuted.

Example C35_example : w35raw <> w36raw /\ @unmarshalAndProcessMessage toy ga w36raw clock = (ga, Ok (Some (str "other"))).
Proof. split; [vm_compute; discriminate|vm_compute; reflexivity]. Qed.

(** ** C36 *)
(** The key is always the same; the nonces differ when the random reuse guards
    do. *)
Theorem C36_nonces_differ_with_the_guards_partial :
  forall (C : crypto) g d1 d2 r1 r2 guard1 guard2 raw1 raw2,
  u64 (gc_epoch (gr_context g)) ->
  createApplicationMessage g d1 r1 guard1 = Ok raw1 -> createApplicationMessage g d2 r2 guard2 = Ok raw2 ->
  length guard1 = length guard2 -> guard1 <> guard2 ->
  exists key n1 n2 pt1 pt2, sealed_under raw1 key n1 pt1 /\ sealed_under raw2 key n2 pt2 /\ n1 <> n2.
Proof. exact @nonces_differ. Qed.
Print Assumptions C36_nonces_differ_with_the_guards_partial.

Theorem C36_key_and_nonce_are_reused_refuted :
  exists (C : crypto) g d1 d2 rnd guard raw1 raw2 key nonce pt1 pt2,
    crypto_ok C /\ createApplicationMessage g d1 rnd guard = Ok raw1 /\ createApplicationMessage g d2 rnd guard = Ok raw2 /\
    sealed_under raw1 key nonce pt1 /\ sealed_under raw2 key nonce pt2 /\ pt1 <> pt2.
Proof. exact key_and_nonce_reused. Qed.
Print Assumptions C36_key_and_nonce_are_reused_refuted.

Example C36_example :
  is_ok (@createApplicationMessage toy gb (str "hello") [] (str "efgh")) = true /\
  is_ok (@createApplicationMessage toy gb (str "hello") [] (str "ijkl")) = true.
Proof. split; vm_compute; reflexivity. Qed.

(** ** C37 *)
Theorem C37_messages_for_another_group_or_epoch_are_rejected :
  forall (C : crypto) g raw now m gid e, unmarshal getMlsMessage raw = Ok m -> names_group m = Some (gid, e) ->
  gid <> gc_groupID (gr_context g) \/ e <> gc_epoch (gr_context g) ->
  exists err, unmarshalAndProcessMessage g raw now = (g, Err err).
Proof. exact @wrong_group. Qed.
Print Assumptions C37_messages_for_another_group_or_epoch_are_rejected.

Example C37_example :
  exists m, unmarshal getMlsMessage w35raw = Ok m /\ names_group m = Some (gc_groupID (gr_context ga), gc_epoch (gr_context ga)) /\
    gc_epoch (gr_context (snd w46)) <> gc_epoch (gr_context ga) /\
    exists err, @unmarshalAndProcessMessage toy (snd w46) w35raw clock = (snd w46, Err err).
Proof. eexists. split; [vm_compute; reflexivity|]. split; [vm_compute; reflexivity|]. split; [vm_compute; discriminate|]. eexists. vm_compute. reflexivity. Qed.

(** ** C38 *)
Theorem C38_only_authenticated_content_is_acted_on :
  forall (C : crypto) g raw now g' r, unmarshalAndProcessMessage g raw now = (g', r) ->
  (g' = g /\ rejected r) \/
  exists ac, carries g raw ac /\ authentic g ac /\
    (forall m, unmarshal getMlsMessage raw = Ok (MPublic m) -> membership_tagged g m) /\
    (forall d, r = Ok (Some d) -> fc_body (ac_content ac) = BApplication d).
Proof. exact @authenticated. Qed.
Print Assumptions C38_only_authenticated_content_is_acted_on.

(** The right-hand side does happen, for public and for private messages. *)
Example C38_example :
  (exists w, acceptedPublic ga w46raw = Some w) /\
  @unmarshalAndProcessMessage toy ga w35raw clock = (ga, Ok (Some (str "hello"))) /\
  (exists e, @unmarshalAndProcessMessage toy ga (upd w46raw (length w46raw - 1) xff) clock = (ga, Err e)).
Proof. split; [eexists; exact w46_accepted|]. split; [vm_compute; reflexivity|]. eexists. vm_compute. reflexivity. Qed.

(** ** C39 *)
Theorem C39_public_application_data_is_rejected :
  forall (C : crypto) g raw now m d, unmarshal getMlsMessage raw = Ok (MPublic m) -> fc_body (pubm_content m) = BApplication d ->
  fst (unmarshalAndProcessMessage g raw now) = g /\ rejected (snd (unmarshalAndProcessMessage g raw now)).
Proof. exact @public_application. Qed.
Print Assumptions C39_public_application_data_is_rejected.

Theorem C39_messages_from_non_members_are_rejected :
  forall (C : crypto) g raw now m, unmarshal getMlsMessage raw = Ok (MPublic m) ->
  (forall li, fc_sender (pubm_content m) <> SMember li) ->
  exists err, unmarshalAndProcessMessage g raw now = (g, Err err).
Proof. exact @public_non_member. Qed.
Print Assumptions C39_messages_from_non_members_are_rejected.

Theorem C39_other_wire_formats_are_rejected :
  forall (C : crypto) g raw now m, unmarshal getMlsMessage raw = Ok m -> names_group m = None ->
  exists err, unmarshalAndProcessMessage g raw now = (g, Err err).
Proof. exact @other_wire_formats. Qed.
Print Assumptions C39_other_wire_formats_are_rejected.

Example C39_example :
  exists raw e, @sendPublic toy gb 1 (BApplication (str "in the clear")) [] [] = Ok raw /\
    @unmarshalAndProcessMessage toy ga raw clock = (ga, Err e).
Proof. eexists. eexists. split; [vm_compute; reflexivity|vm_compute; reflexivity]. Qed.

(** ** C40 *)
Theorem C40_nonzero_padding_is_rejected :
  forall (C : crypto) g raw now m sds sd secret key nonce aad plain c pad b,
  unmarshal getMlsMessage raw = Ok (MPrivate m) ->
  deriveSecret (gc_cipherSuite (gr_context g)) (gr_epochSecret g) (str "sender data") = Ok sds ->
  decryptSenderData (gc_cipherSuite (gr_context g)) m sds = Ok sd ->
  messageSecret g (sd_leafIndex sd) (privm_contentType m) (sd_generation sd) = Ok secret ->
  derivePrivateMessageKeyAndNonce (gc_cipherSuite (gr_context g)) secret (sd_reuseGuard sd) = Ok (key, nonce) ->
  putPrivateContentAAD (privm_groupID m) (privm_epoch m) (privm_contentType m) (privm_authenticatedData m) = Ok aad ->
  aeadOpen (gc_cipherSuite (gr_context g)) key nonce aad (privm_ciphertext m) = Ok plain ->
  getPrivateMessageContent (privm_contentType m) plain = (Ok c, pad) -> In b pad -> b <> x00 ->
  exists e, unmarshalAndProcessMessage g raw now = (g, Err e).
Proof. exact @padding_rejected. Qed.
Print Assumptions C40_nonzero_padding_is_rejected.

Theorem C40_zero_padding_is_accepted :
  forall (C : crypto) cs m secret guard key nonce aad c e n,
  derivePrivateMessageKeyAndNonce cs secret guard = Ok (key, nonce) ->
  putPrivateContentAAD (privm_groupID m) (privm_epoch m) (privm_contentType m) (privm_authenticatedData m) = Ok aad ->
  wf_privateMessageContent c -> putPrivateMessageContent c = Ok e -> privm_contentType m = body_type (pmc_body c) ->
  aeadOpen cs key nonce aad (privm_ciphertext m) = Ok (e ++ repeat x00 n) ->
  decryptContent cs m secret guard = Ok c.
Proof. exact @padding_zero. Qed.
Print Assumptions C40_zero_padding_is_accepted.

(** Conversely, what is accepted is an encoding followed by zero bytes. *)
Theorem C40_accepted_padding_is_zero :
  forall (C : crypto) cs m secret guard c, decryptContent cs m secret guard = Ok c ->
  In (privm_contentType m) [1; 2; 3] -> good_privateMessageContent c ->
  exists key nonce aad e n,
    derivePrivateMessageKeyAndNonce cs secret guard = Ok (key, nonce) /\
    putPrivateContentAAD (privm_groupID m) (privm_epoch m) (privm_contentType m) (privm_authenticatedData m) = Ok aad /\
    putPrivateMessageContent c = Ok e /\ aeadOpen cs key nonce aad (privm_ciphertext m) = Ok (e ++ repeat x00 n) /\
    privm_contentType m = body_type (pmc_body c).
Proof. exact @padding_only_zero. Qed.
Print Assumptions C40_accepted_padding_is_zero.

Example C40_example :
  let c := mkPrivateMessageContent (BApplication (str "x")) (mkAuthData (str "sig") []) in
  let m pad := mkPrivateMessage (str "g") 0 1 [] []
             (getOr [] (@aeadSeal toy 1 (fst w36keys) (snd w36keys) (getOr [] (putPrivateContentAAD (str "g") 0 1 []))
                          (getOr [] (putPrivateMessageContent c) ++ pad))) in
  @decryptContent toy 1 (m [x00; x00]) w36secret (str "efgh") = Ok c /\
  is_ok (@decryptContent toy 1 (m [x00; x01]) w36secret (str "efgh")) = false.
Proof. split; vm_compute; reflexivity. Qed.

(** ** C43 *)
Theorem C43_identity_is_kept_and_epochs_count_commits :
  forall (C : crypto) l g n, u64 (gc_epoch (gr_context g)) -> commits_accepted g l n ->
  let g' := after g l in
  gc_groupID (gr_context g') = gc_groupID (gr_context g) /\
  gc_cipherSuite (gr_context g') = gc_cipherSuite (gr_context g) /\
  gc_version (gr_context g') = gc_version (gr_context g) /\
  gr_myLeafIndex g' = gr_myLeafIndex g /\ gr_signaturePriv g' = gr_signaturePriv g /\
  gc_epoch (gr_context g') = (gc_epoch (gr_context g) + n) mod 2 ^ 64.
Proof. exact @history. Qed.
Print Assumptions C43_identity_is_kept_and_epochs_count_commits.

Theorem C43_every_history_has_a_commit_count :
  forall (C : crypto) l g, exists n, commits_accepted g l n.
Proof. exact @commits_accepted_exists. Qed.
Print Assumptions C43_every_history_has_a_commit_count.

Example C43_example :
  gc_epoch (gr_context ga) = 1 /\
  gc_epoch (gr_context (@after toy ga [(w35raw, clock); (w46raw, clock); (w35raw, clock); (w27update, clock)])) = 2.
Proof. split; vm_compute; reflexivity. Qed.

(** ** C46 *)
(** The function that checks confirmation tags is right... *)
Theorem C46_tag_verification_function_partial :
  forall (C : crypto) cs a key confirmed, known_suite cs ->
  (authDataVerifyConfirmationTag cs a key confirmed = Ok true <->
   ad_confirmationTag a <> [] /\ ad_confirmationTag a = MAC cs key confirmed).
Proof. exact @confirmation_tag_checked. Qed.
Print Assumptions C46_tag_verification_function_partial.

(** ... but processing a commit does not use it. *)
Theorem C46_commit_with_wrong_tag_is_accepted_refuted :
  exists (C : crypto) g raw now ac c g',
    crypto_ok C /\ accepts_commit g raw now ac c g' /\
    ad_confirmationTag (ac_auth ac) <> confirmation_tag (gr_context g') (gr_epochSecret g').
Proof. exact wrong_confirmation_tag. Qed.
Print Assumptions C46_commit_with_wrong_tag_is_accepted_refuted.

Example C46_example :
  @authDataVerifyConfirmationTag toy 1 (mkAuthData [] (cr_hmac toy SHA256 (str "k") (str "h"))) (str "k") (str "h") = Ok true /\
  @authDataVerifyConfirmationTag toy 1 (mkAuthData [] (str "bogus")) (str "k") (str "h") = Ok false.
Proof. split; vm_compute; reflexivity. Qed.

(** ** C58 *)
Theorem C58_new_members_are_the_invited_ones_in_order :
  forall (C : crypto) g kps rs ri rh guard w m,
  snd (createWelcome g kps rs ri rh guard) = Ok (w, m) -> welcomeNewMembers w = map KeyPackageRef kps.
Proof. exact @welcome_members. Qed.
Print Assumptions C58_new_members_are_the_invited_ones_in_order.

Theorem C58_joining_uninvited_fails :
  forall (C : crypto) w kpp now, ~ In (KeyPackageRef (kpp_public kpp)) (welcomeNewMembers w) ->
  (forall g, groupFromWelcome w kpp now <> Ok g) /\
  (wf_keyPackage (kpp_public kpp) -> known_suite (kp_cipherSuite (kpp_public kpp)) -> exists e, groupFromWelcome w kpp now = Err e).
Proof. exact @uninvited. Qed.
Print Assumptions C58_joining_uninvited_fails.

Example C58_example :
  exists w m, snd (@createWelcome toy ga [kpp_public dave] [] [] [str "x"] (str "abcd")) = Ok (w, m) /\
    length (welcomeNewMembers w) = 1%nat /\
    is_ok (@groupFromWelcome toy w dave clock) = true /\ is_ok (@groupFromWelcome toy w alice clock) = false.
Proof. eexists. eexists. split; [vm_compute; reflexivity|]. split; [reflexivity|]. split; [vm_compute; reflexivity|vm_compute; reflexivity]. Qed.

(** ** C62 *)
Theorem C62_known_suites_do_not_panic_partial :
  forall (C : crypto) raw k, unmarshalKeyPackage raw = Ok k -> known_suite (kp_cipherSuite k) -> no_crash (keyPackageRef k).
Proof. exact @keyPackageRef_known. Qed.
Print Assumptions C62_known_suites_do_not_panic_partial.

Theorem C62_key_packages_of_other_suites_are_not_added_partial :
  forall (C : crypto) k ctx, kp_version k = gc_version ctx -> kp_cipherSuite k <> gc_cipherSuite ctx ->
  exists e, keyPackageVerify k ctx = Err e.
Proof. exact @unknown_suite_not_added. Qed.
Print Assumptions C62_key_packages_of_other_suites_are_not_added_partial.

Theorem C62_key_package_with_unknown_suite_panics_refuted :
  exists (C : crypto) raw k msg, crypto_ok C /\ unmarshalKeyPackage raw = Ok k /\ keyPackageRef k = Panic msg.
Proof. exact unknown_suite_key_package. Qed.
Print Assumptions C62_key_package_with_unknown_suite_panics_refuted.

Theorem C62_welcome_with_unknown_suite_panics_refuted :
  exists (C : crypto) raw w kpp msg now, crypto_ok C /\ unmarshalWelcome raw = Ok w /\ groupFromWelcome w kpp now = Panic msg.
Proof. exact unknown_suite_welcome. Qed.
Print Assumptions C62_welcome_with_unknown_suite_panics_refuted.

Example C62_example :
  is_ok (@keyPackageRef toy (kpp_public alice)) = true /\ cipherSuiteDescriptions 4660 = None /\
  (exists e, @keyPackageVerify toy w62kp (gr_context ga) = Err e).
Proof. split; [vm_compute; reflexivity|]. split; [reflexivity|]. eexists. vm_compute. reflexivity. Qed.
