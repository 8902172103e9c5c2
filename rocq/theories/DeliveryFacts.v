(** Private messages arrive as they were sent. *)
From Verif Require Export SpecAgreement MessageFacts ScheduleFacts.

Section WithCrypto.
Context {C : crypto}.

(** What [aeadSeal] produces, [aeadOpen] opens. *)
Lemma aead_rt cs key nonce aad pt ct : crypto_ok C -> aeadSeal cs key nonce aad pt = Ok ct -> aeadOpen cs key nonce aad ct = Ok pt.
Proof.
  intros HC H. unfold aeadSeal in H. unfold aeadOpen. apply rbind_ok in H. destruct H as (d & Hd & H). rewrite Hd. cbn [rbind].
  destruct (negb (lenN key =? aeadKeySize (sd_aead d))) eqn:Ek; [discriminate|].
  destruct (negb (lenN nonce =? aeadNonceSize (sd_aead d))) eqn:En; [discriminate|].
  apply Ok_inj in H. subst ct. apply negb_false_iff, N.eqb_eq in Ek, En. rewrite (ok_aead C HC) by assumption. reflexivity.
Qed.

Lemma signed_verifies cs d pub priv rnd label content s : cipherSuiteDescriptions cs = Some d ->
  sig_pair C (sd_sig d) pub priv -> signWithLabel cs priv rnd label content = Ok s ->
  verifyWithLabel cs pub label content s = Ok true.
Proof.
  intros Hd Hp H. unfold signWithLabel in H. unfold verifyWithLabel. apply rbind_ok in H. destruct H as (raw & -> & H).
  rewrite (proj2 (describe_ok _ _) Hd) in *. cbn [rbind] in *. destruct (Hp rnd raw) as (s' & Hs & Hv). congruence.
Qed.

Lemma numLeaves_same {A B} (t : list A) (u : list B) : length t = length u -> numLeaves t = numLeaves u.
Proof. intros H. unfold numLeaves, lenN. now rewrite H. Qed.

Lemma messageSecret_same g1 g2 li ct gen : gr_context g2 = gr_context g1 -> length (gr_tree g2) = length (gr_tree g1) ->
  gr_epochSecret g2 = gr_epochSecret g1 -> messageSecret g2 li ct gen = messageSecret g1 li ct gen.
Proof. intros Hc Ht He. unfold messageSecret. now rewrite Hc, He, (numLeaves_same _ _ Ht). Qed.

Lemma gr_value_length g : length (gr_value g) = length (gr_tree g).
Proof. unfold gr_value, deref. now rewrite map_length. Qed.

(** A content that this member sends is opened by the members of the same epoch. *)
Lemma private_delivered g g2 b auth rg raw leaf tbs d : crypto_ok C ->
  u64 (gc_epoch (gr_context g)) -> u32 (gr_myLeafIndex g) -> wf_body b -> wf_authData (body_type b) auth -> lenN rg = 4 ->
  same_epoch g g2 -> own_leaf g leaf ->
  putFramedContentTBS wireFormatMLSPrivateMessage (ownContent g b) (gr_context g) = Ok tbs ->
  cipherSuiteDescriptions (gc_cipherSuite (gr_context g)) = Some d ->
  verifyWithLabel (gc_cipherSuite (gr_context g)) (ln_signatureKey leaf) (str "FramedContentTBS") tbs (ad_signature auth) = Ok true ->
  groupEncryptPrivateMessage g (ownContent g b) (mkPrivateMessageContent b auth) rg = Ok raw ->
  exists m, unmarshal getMlsMessage raw = Ok (MPrivate m) /\
    openPrivateMessage g2 m = Ok (mkAuthenticatedContent wireFormatMLSPrivateMessage (ownContent g b) auth).
Proof.
  intros HC He Hli Hb Ha Hg (Hctx & Hval & Hes) Hown Htbs Hd Hsig H.
  unfold groupEncryptPrivateMessage in H. cbn [ownContent fc_body] in H. change (mkFramedContent (gc_groupID (gr_context g)) (gc_epoch (gr_context g)) (SMember (gr_myLeafIndex g)) [] b) with (ownContent g b) in H.
  apply rbind_ok in H. destruct H as (secret & Hs & H).
  apply rbind_ok in H. destruct H as (sds & Hsds & H).
  apply rbind_ok in H. destruct H as (m & Hm & H).
  unfold encryptPrivateMessage in Hm.
  apply rbind_ok in Hm. destruct Hm as (ct & Hct & Hm).
  apply rbind_ok in Hm. destruct Hm as (esd & Hesd & Hm). apply Ok_inj in Hm. subst m.
  eexists. split.
  { apply unmarshal_mls; [|exact H]. cbn. split; [exact He|]. destruct b; cbn; auto. }
  assert (Ht : length (gr_tree g2) = length (gr_tree g)) by (rewrite <- !gr_value_length; congruence).
  unfold encryptPrivateMessageContent in Hct.
  apply rbind_ok in Hct. destruct Hct as (pt & Hpt & Hct).
  apply rbind_ok in Hct. destruct Hct as ([key nonce] & Hkn & Hct).
  apply rbind_ok in Hct. destruct Hct as (aad & Haad & Hct).
  unfold encryptSenderData in Hesd.
  apply rbind_ok in Hesd. destruct Hesd as (skey & Hskey & Hesd).
  apply rbind_ok in Hesd. destruct Hesd as (snonce & Hsnonce & Hesd).
  apply rbind_ok in Hesd. destruct Hesd as (saad & Hsaad & Hesd).
  apply rbind_ok in Hesd. destruct Hesd as (sraw & Hsraw & Hesd).
  unfold openPrivateMessage. rewrite Hctx, Hes. cbn [privm_groupID privm_epoch privm_contentType ownContent fc_groupID fc_epoch fc_body fc_authenticatedData].
  rewrite bytes_eqb_refl, N.eqb_refl. cbn [guard rbind]. rewrite Hsds. cbn [rbind].
  cbn [ownContent fc_groupID fc_epoch fc_body fc_authenticatedData sd_reuseGuard] in *.
  unfold decryptSenderData. cbn [privm_groupID privm_epoch privm_contentType privm_ciphertext privm_encryptedSenderData].
  rewrite Hskey. cbn [rbind]. rewrite Hsnonce. cbn [rbind]. rewrite Hsaad. cbn [rbind].
  rewrite (aead_rt _ _ _ _ _ _ HC Hesd). cbn [rbind].
  assert (Hsd : unmarshal getSenderData sraw = Ok (mkSenderData (gr_myLeafIndex g) 0 rg)).
  { apply unmarshal_ok. pose proof (fun w => senderData_RT _ _ [] w Hsraw) as R. rewrite app_nil_r in R. apply R.
    repeat split; cbn; auto; reflexivity. }
  rewrite Hsd. cbn [rbind sd_leafIndex sd_generation sd_reuseGuard].
  rewrite (messageSecret_same g g2) by assumption. rewrite Hs. cbn [rbind].
  rewrite (padding_zero _ _ _ _ key nonce aad (mkPrivateMessageContent b auth) pt 0); cbn [privm_groupID privm_epoch privm_contentType privm_authenticatedData privm_ciphertext pmc_body]; auto.
  3: { rewrite app_nil_r. now apply aead_rt. }
  2: split; cbn; auto.
  cbn [rbind]. rewrite Hval. unfold own_leaf in Hown. apply getLeaf_some in Hown. rewrite Hown. cbn [rbind].
  unfold authContentVerifySignature, privMsgAuthContent, privContentAuthContent. cbn [ac_wireFormat ac_content ac_auth sd_leafIndex pmc_auth pmc_body privm_groupID privm_epoch privm_authenticatedData].
  unfold ownContent in Htbs. rewrite Htbs. cbn [falseOnPutErr]. rewrite Hsig. cbn. reflexivity.
Qed.

Lemma application_delivered g g2 data rnd rg raw now : crypto_ok C ->
  u64 (gc_epoch (gr_context g)) -> u32 (gr_myLeafIndex g) -> lenN rg = 4 -> can_sign g -> same_epoch g g2 ->
  createApplicationMessage g data rnd rg = Ok raw ->
  unmarshalAndProcessMessage g2 raw now = (g2, Ok (Some data)).
Proof.
  intros HC He Hli Hg (l & alg & Hl & Halg & Hp) Hsame H.
  destruct (cipherSuiteDescriptions (gc_cipherSuite (gr_context g))) as [d|] eqn:Hd; [|discriminate]. cbn in Halg. injection Halg as <-.
  unfold createApplicationMessage, signPrivateMessageContent, signAuthenticatedContent in H.
  apply rbind_ok in H. destruct H as (pc & Hpc & H).
  apply rbind_ok in Hpc. destruct Hpc as (ac & Hac & Hpc). apply Ok_inj in Hpc. subst pc.
  apply rbind_ok in Hac. destruct Hac as (tbs & Htbs & Hac).
  apply rbind_ok in Hac. destruct Hac as (sg & Hsg & Hac). apply Ok_inj in Hac. subst ac. cbn [ac_auth ownContent fc_body] in H.
  pose proof (signed_verifies _ _ _ _ _ _ _ _ Hd Hp Hsg) as Hv.
  destruct (private_delivered g g2 (BApplication data) (mkAuthData sg []) rg raw l tbs d HC He Hli I (or_intror eq_refl) Hg Hsame Hl Htbs Hd Hv H) as (m & Hm & Ho).
  unfold unmarshalAndProcessMessage. rewrite Hm. unfold processPrivateMessage. rewrite Ho. reflexivity.
Qed.
End WithCrypto.
