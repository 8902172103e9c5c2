(** Wrappers of the lemmas on RFC 9420 for groups obtained through the API, and
    concrete cases. *)
From Verif Require Export EpochFacts GroupSamples.

Section WithCrypto.
Context {C : crypto}.

Lemma key_schedule_rfc :
  (forall cs s l c n, gives (expandWithLabel cs s l c n) (ExpandWithLabel cs s l c n) (known_suite cs /\ n <= 255 * secretSize cs /\ short l /\ short c)) /\
  (forall cs s l, gives (deriveSecret cs s l) (DeriveSecret cs s l) (known_suite cs /\ short l)) /\
  (forall ctx i c, gives (extractJoinerSecret ctx i c) (joiner_secret ctx i c) (known_suite (gc_cipherSuite ctx) /\ short (enc_groupContext ctx))) /\
  (forall ctx j p, gives (extractEpochSecret ctx j p) (epoch_secret ctx j p) (known_suite (gc_cipherSuite ctx) /\ short (enc_groupContext ctx))) /\
  (forall cs j p, gives (extractWelcomeSecret cs j p) (welcome_secret cs j p) (known_suite cs)) /\
  (forall ctx e, gives (signConfirmationTag ctx e) (confirmation_tag ctx e) (known_suite (gc_cipherSuite ctx))) /\
  (forall cs s l c n, gives (deriveExporter cs s l c n) (exporter cs s l c n) (known_suite cs /\ n <= 255 * secretSize cs /\ short l /\ short (Hash cs c))) /\
  (forall cs ids psks, length ids = length psks -> gives (extractPSKSecret cs ids psks) (psk_secret cs (combine ids psks))
     (known_suite cs /\ Forall (fun id => lenN (enc_pskID id) < 2 ^ 20) ids)).
Proof.
  repeat match goal with |- _ /\ _ => split end; intros.
  - apply gives_expand_short. - apply gives_deriveSecret. - apply gives_joiner. - apply gives_epoch. - apply gives_welcome.
  - apply gives_confirmation. - apply gives_exporter. - now apply gives_pskSecret.
Qed.

Lemma hashes_rfc :
  (forall cs w c sig interim, wf_framedContent c -> (exists k, fc_body c = BCommit k) ->
     gives (confirmedTranscriptHash cs w c sig interim) (confirmed_transcript_hash cs interim w c sig)
       (known_suite cs /\ short (enc_confirmedTranscriptHashInput w c sig))) /\
  (forall cs h t, gives (nextInterimTranscriptHash cs h t) (interim_transcript_hash cs h t) (known_suite cs /\ short t)) /\
  (forall k, wf_keyPackage k -> gives (keyPackageRef k) (KeyPackageRef k) (known_suite (kp_cipherSuite k) /\ short (enc_keyPackage k))) /\
  (forall cs ac p, wf_authenticatedContent ac -> fc_body (ac_content ac) = BProposal p ->
     gives (generateProposalRef cs ac) (ProposalRef cs ac) (known_suite cs /\ short (enc_authenticatedContent ac))).
Proof.
  repeat match goal with |- _ /\ _ => split end; intros.
  - now apply gives_confirmed. - apply gives_interim. - now apply gives_keyPackageRef. - now apply (gives_proposalRef _ _ p).
Qed.

Lemma hpke_rfc :
  (forall cs pub l c pt rnd ko ct, lenN (enc_labelled l c) < 2 ^ 30 ->
     encryptWithLabel cs pub l c pt rnd = Ok (ko, ct) <-> EncryptWithLabel cs pub l c pt rnd ko ct) /\
  (forall cs priv l c ko ct pt, lenN (enc_labelled l c) < 2 ^ 30 ->
     decryptWithLabel cs priv l c ko ct = Ok pt <-> DecryptWithLabel cs priv l c ko ct pt).
Proof. split; intros; [now apply encrypt_iff|now apply decrypt_iff]. Qed.

Lemma obtained_commit_rfc g raw now ac c g' : obtained g -> accepts_commit g raw now ac c g' -> new_epoch g ac c g'.
Proof. intros H. apply commit_rfc. now apply obtained_sane. Qed.
Lemma obtained_application_rfc g data rnd guard raw : obtained g -> createApplicationMessage g data rnd guard = Ok raw ->
  exists k sig, shaped k (gr_value g) /\
    SignWithLabel (gc_cipherSuite (gr_context g)) (gr_signaturePriv g) (str "FramedContentTBS")
      (enc_framedContentTBS 2 (member_content g (BApplication data)) (gr_context g)) rnd sig /\
    raw = member_message g k (BApplication data) (mkAuthData sig []) guard.
Proof. intros H. apply application_rfc. now apply obtained_sane. Qed.
Lemma obtained_received_rfc g raw m ac : obtained g -> unmarshal getMlsMessage raw = Ok (MPrivate m) -> carries g raw ac ->
  good_body (fc_body (ac_content ac)) ->
  raw = enc_mlsMessage (MPrivate m) /\ ac_wireFormat ac = 2 /\
  exists k sd padding, shaped k (gr_value g) /\ designated (sd_leafIndex sd) < leaf_count k /\
    protects (gr_context g) (gr_epochSecret g) (leafPath k (designated (sd_leafIndex sd))) sd (ac_content ac) (ac_auth ac) padding m.
Proof. intros H. apply received_rfc. now apply obtained_sane. Qed.
Lemma obtained_welcome_rfc g kps rs ri rh rg g1 w raw : crypto_ok C -> obtained g -> createWelcome g kps rs ri rh rg = (g1, Ok (w, raw)) ->
  adds_with_welcome g kps rs ri rg w raw.
Proof. intros HC H. apply welcome_rfc; [exact HC|]. now apply obtained_sane. Qed.
End WithCrypto.
