(** Properties C66-C69: what the code computes is what RFC 9420 prescribes. *)
From Verif Require Import RfcSamples.

(** ** C07 *)
(** The bytes of C07 are those that RFC 9420 prescribes, and they are what the
    code signs and verifies. *)
Theorem C07_signed_bytes_are_the_prescribed_ones :
  forall o bs, signedBytes o = Ok bs -> bs = enc_labelled (signed_label o) (signed_content o).
Proof. exact signed_bytes_rfc. Qed.
Print Assumptions C07_signed_bytes_are_the_prescribed_ones.

Theorem C07_signatures_are_over_these_bytes :
  forall C : crypto,
  (forall cs gid li priv rnd l l', leafNodeSign cs gid li priv rnd l = Ok l' ->
     SignWithLabel cs priv (signed_label (SignLeafNode l gid li)) (signed_content (SignLeafNode l gid li)) rnd (ln_signature l') /\
     enc_leafNodeTBS l' gid li = enc_leafNodeTBS l gid li) /\
  (forall priv rnd k k', keyPackageSign priv rnd k = Ok k' ->
     SignWithLabel (kp_cipherSuite k) priv (signed_label (SignKeyPackage k)) (signed_content (SignKeyPackage k)) rnd (kp_signature k') /\
     enc_keyPackageTBS k' = enc_keyPackageTBS k) /\
  (forall priv rnd gi gi', groupInfoSign priv rnd gi = Ok gi' ->
     SignWithLabel (gc_cipherSuite (gi_groupContext gi)) priv (signed_label (SignGroupInfo gi)) (signed_content (SignGroupInfo gi)) rnd (gi_signature gi') /\
     enc_groupInfoTBS gi' = enc_groupInfoTBS gi) /\
  (forall cs priv rnd w c ctx ac, signAuthenticatedContent cs priv rnd w c ctx = Ok ac ->
     SignWithLabel cs priv (signed_label (SignFramedContent w c ctx)) (signed_content (SignFramedContent w c ctx)) rnd (ad_signature (ac_auth ac)) /\
     ac = mkAuthenticatedContent w c (mkAuthData (ad_signature (ac_auth ac)) [])).
Proof. exact @signings_rfc. Qed.
Print Assumptions C07_signatures_are_over_these_bytes.

Theorem C07_verification_is_over_these_bytes :
  forall C : crypto,
  (forall cs gid li l, checks_signature cs (ln_signatureKey l) (SignLeafNode l gid li) (ln_signature l) (leafNodeVerifySignature cs gid li l)) /\
  (forall k, checks_signature (kp_cipherSuite k) (ln_signatureKey (kp_leafNode k)) (SignKeyPackage k) (kp_signature k) (keyPackageVerifySignature k)) /\
  (forall gi key, checks_signature (gc_cipherSuite (gi_groupContext gi)) key (SignGroupInfo gi) (gi_signature gi) (groupInfoVerifySignature gi key)) /\
  (forall ac key ctx, checks_signature (gc_cipherSuite ctx) key (SignFramedContent (ac_wireFormat ac) (ac_content ac) ctx) (ad_signature (ac_auth ac))
     (authContentVerifySignature ac key ctx)).
Proof. exact @verifications_rfc. Qed.
Print Assumptions C07_verification_is_over_these_bytes.

(** ** C66 *)
Theorem C66_cipher_suites : forall cs, cipherSuiteDescriptions cs = suite cs.
Proof. exact (fun cs => eq_sym (suite_eq cs)). Qed.
Print Assumptions C66_cipher_suites.

Theorem C66_key_schedule :
  forall C : crypto,
  (forall cs s l c n, gives (expandWithLabel cs s l c n) (ExpandWithLabel cs s l c n) (known_suite cs /\ n <= 255 * secretSize cs /\ short l /\ short c)) /\
  (forall cs s l, gives (deriveSecret cs s l) (DeriveSecret cs s l) (known_suite cs /\ short l)) /\
  (forall ctx i c, gives (extractJoinerSecret ctx i c) (joiner_secret ctx i c) (known_suite (gc_cipherSuite ctx) /\ short (enc_groupContext ctx))) /\
  (forall ctx j p, gives (extractEpochSecret ctx j p) (epoch_secret ctx j p) (known_suite (gc_cipherSuite ctx) /\ short (enc_groupContext ctx))) /\
  (forall cs j p, gives (extractWelcomeSecret cs j p) (welcome_secret cs j p) (known_suite cs)) /\
  (forall ctx e, gives (signConfirmationTag ctx e) (confirmation_tag ctx e) (known_suite (gc_cipherSuite ctx))) /\
  (forall cs s l c n, gives (deriveExporter cs s l c n) (exporter cs s l c n) (known_suite cs /\ n <= 255 * secretSize cs /\ short l /\ short (Hash cs c))) /\
  (forall cs ids psks, length ids = length psks -> gives (extractPSKSecret cs ids psks) (psk_secret cs (combine ids psks))
     (known_suite cs /\ Forall (fun id => lenN (enc_pskID id) < 2 ^ 20) ids)).
Proof. exact @key_schedule_rfc. Qed.
Print Assumptions C66_key_schedule.

Theorem C66_transcript_hashes_and_references :
  forall C : crypto,
  (forall cs w c sig interim, wf_framedContent c -> (exists k, fc_body c = BCommit k) ->
     gives (confirmedTranscriptHash cs w c sig interim) (confirmed_transcript_hash cs interim w c sig)
       (known_suite cs /\ short (enc_confirmedTranscriptHashInput w c sig))) /\
  (forall cs h t, gives (nextInterimTranscriptHash cs h t) (interim_transcript_hash cs h t) (known_suite cs /\ short t)) /\
  (forall k, wf_keyPackage k -> gives (keyPackageRef k) (KeyPackageRef k) (known_suite (kp_cipherSuite k) /\ short (enc_keyPackage k))) /\
  (forall cs ac p, wf_authenticatedContent ac -> fc_body (ac_content ac) = BProposal p ->
     gives (generateProposalRef cs ac) (ProposalRef cs ac) (known_suite cs /\ short (enc_authenticatedContent ac))).
Proof. exact @hashes_rfc. Qed.
Print Assumptions C66_transcript_hashes_and_references.

Theorem C66_public_key_encryption :
  forall C : crypto,
  (forall cs pub l c pt rnd ko ct, lenN (enc_labelled l c) < 2 ^ 30 ->
     encryptWithLabel cs pub l c pt rnd = Ok (ko, ct) <-> EncryptWithLabel cs pub l c pt rnd ko ct) /\
  (forall cs priv l c ko ct pt, lenN (enc_labelled l c) < 2 ^ 30 ->
     decryptWithLabel cs priv l c ko ct = Ok pt <-> DecryptWithLabel cs priv l c ko ct pt).
Proof. exact @hpke_rfc. Qed.
Print Assumptions C66_public_key_encryption.

Example C66_example :
  known_suite 1 /\ short (enc_groupContext (gr_context ga)) /\
  @extractEpochSecret toy (gr_context ga) (str "joiner") (zeroes 32) = Ok (@epoch_secret toy (gr_context ga) (str "joiner") (zeroes 32)) /\
  @keyPackageRef toy (kpp_public bob) = Ok (@KeyPackageRef toy (kpp_public bob)) /\
  @deriveSecret toy 1 (str "secret") (str "exporter") <> Ok (@DeriveSecret toy 1 (str "secret") (str "external")).
Proof.
  split; [eexists; reflexivity|]. split; [vm_compute; reflexivity|]. split; [vm_compute; reflexivity|].
  split; [vm_compute; reflexivity|vm_compute; discriminate].
Qed.

(** ** C67 *)
Theorem C67_new_groups :
  forall (C : crypto) groupID kpp epochSecret g, createGroup groupID kpp epochSecret = Ok g -> new_group groupID kpp epochSecret g.
Proof. exact @created_rfc. Qed.
Print Assumptions C67_new_groups.

Theorem C67_new_epochs :
  forall (C : crypto) g raw now ac c g', obtained g -> accepts_commit g raw now ac c g' -> new_epoch g ac c g'.
Proof. exact @obtained_commit_rfc. Qed.
Print Assumptions C67_new_epochs.

(** A commit with a path, accepted in a group obtained through the API *)
Example C67_example :
  @createGroup toy (str "grp") alice (zeros 32) = Ok g0 /\ @obtained toy ga /\
  (exists m c, acceptedPublic ga w55raw = Some (m, c, snd w55) /\ c_path c <> None) /\
  gc_epoch (gr_context (snd w55)) = gc_epoch (gr_context ga) + 1.
Proof.
  split; [vm_compute; reflexivity|]. split; [exact ga_obtained|]. split; [|vm_compute; reflexivity].
  exists (fst (fst w55)), (snd (fst w55)). split; [vm_compute; reflexivity|vm_compute; discriminate].
Qed.

(** ** C68 *)
Theorem C68_application_messages :
  forall (C : crypto) g data rnd reuseGuard raw, obtained g -> createApplicationMessage g data rnd reuseGuard = Ok raw ->
  exists k sig, shaped k (gr_value g) /\
    SignWithLabel (gc_cipherSuite (gr_context g)) (gr_signaturePriv g) (str "FramedContentTBS")
      (enc_framedContentTBS 2 (member_content g (BApplication data)) (gr_context g)) rnd sig /\
    raw = member_message g k (BApplication data) (mkAuthData sig []) reuseGuard.
Proof. exact @obtained_application_rfc. Qed.
Print Assumptions C68_application_messages.

(** [carries] (C38) tells which content the code finds in a message. *)
Theorem C68_received_private_messages :
  forall (C : crypto) g raw m ac, obtained g -> unmarshal getMlsMessage raw = Ok (MPrivate m) -> carries g raw ac ->
  good_body (fc_body (ac_content ac)) ->
  raw = enc_mlsMessage (MPrivate m) /\ ac_wireFormat ac = 2 /\
  exists k sd padding, shaped k (gr_value g) /\ designated (sd_leafIndex sd) < leaf_count k /\
    protects (gr_context g) (gr_epochSecret g) (leafPath k (designated (sd_leafIndex sd))) sd (ac_content ac) (ac_auth ac) padding m.
Proof. exact @obtained_received_rfc. Qed.
Print Assumptions C68_received_private_messages.

Theorem C68_membership_tags :
  forall (C : crypto) g m raw li, fc_sender (pubm_content m) = SMember li -> signPublicMessageMembershipTag g m = Ok raw ->
  raw = enc_mlsMessage (MPublic (mkPublicMessage (pubm_content m) (pubm_auth m)
    (membership_tag (gr_context g) (gr_epochSecret g) (pubm_content m) (pubm_auth m)))).
Proof. exact @membership_tag_rfc. Qed.
Print Assumptions C68_membership_tags.

Example C68_example :
  @obtained toy gb /\ @createApplicationMessage toy gb (str "hello") [] (str "efgh") = Ok w35raw /\
  exists sig, w35raw = @member_message toy gb 2 (BApplication (str "hello")) (mkAuthData sig []) (str "efgh") /\
    w35raw <> @member_message toy gb 2 (BApplication (str "hello")) (mkAuthData sig []) (str "efgi").
Proof.
  split; [exact gb_obtained|]. split; [vm_compute; reflexivity|].
  exists (match @signWithLabel toy 1 (gr_signaturePriv gb) [] (str "FramedContentTBS")
                  (enc_framedContentTBS 2 (member_content gb (BApplication (str "hello"))) (gr_context gb)) with Ok s => s | _ => [] end).
  split; [vm_compute; reflexivity|vm_compute; discriminate].
Qed.

(** ** C69 *)
Theorem C69_adding_members :
  forall (C : crypto) g kps rnd rndInfo rndsHpke reuseGuard g' w raw, crypto_ok C -> obtained g ->
  createWelcome g kps rnd rndInfo rndsHpke reuseGuard = (g', Ok (w, raw)) -> adds_with_welcome g kps rnd rndInfo reuseGuard w raw.
Proof. exact @obtained_welcome_rfc. Qed.
Print Assumptions C69_adding_members.

Example C69_example :
  crypto_ok toy /\ @obtained toy g0 /\
  @createWelcome toy g0 [kpp_public bob; kpp_public carol] [] [] [str "x"; str "y"] (str "abcd") = (fst firstWelcome, Ok (snd firstWelcome)).
Proof. split; [exact toy_ok|]. split; [exact g0_obtained|vm_compute; reflexivity]. Qed.
