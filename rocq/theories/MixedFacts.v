(** Nobody looks at whether private keys belong to the public ones: C116. *)
From Verif Require Export SpecMixed ExactJoinFacts OutcomeFacts.

Section WithCrypto.
Context {C : crypto}.

Lemma pathSecretLoop_blind fuel cs t : forall priv ps x priv', processPathSecretLoop fuel cs t priv ps x = Ok priv' ->
  forall other, lenN other = lenN priv -> exists other', processPathSecretLoop fuel cs t other ps x = Ok other'.
Proof.
  induction fuel as [|fuel IH]; intros priv ps x priv' H other Ho; cbn in *; destruct (parent (numLeaves t) x) as [x'|]; try now eexists.
  - apply rbind_ok in H as (ps' & -> & H). apply rbind_ok in H as ([n|] & -> & H); [|discriminate]. cbn [rbind].
    apply rbind_ok in H as (np & -> & H). apply rbind_ok in H as (p1 & _ & H). discriminate.
  - apply rbind_ok in H as (ps' & -> & H). apply rbind_ok in H as ([n|] & -> & H); [|discriminate]. cbn [rbind].
    apply rbind_ok in H as (np & -> & H). apply rbind_ok in H as (p1 & E & H). cbn [rbind].
    pose proof (setN_len _ _ _ _ E) as L. apply setN_ok in E as [E _]. rewrite <- Ho in E. rewrite (setN_in other x' _ E). cbn [rbind].
    apply (IH _ _ _ _ H). rewrite <- (setN_len _ _ _ _ (setN_in other x' (Some np) E)) in Ho. congruence.
Qed.
Lemma pathSecret_blind cs t priv ps x priv' : processPathSecret cs t priv ps x = Ok priv' ->
  forall other, lenN other = lenN priv -> exists other', processPathSecret cs t other ps x = Ok other'.
Proof.
  unfold processPathSecret. intros H other Ho. apply rbind_ok in H as ([n|] & -> & H); [|discriminate]. cbn [rbind].
  apply rbind_ok in H as (np & -> & H). apply rbind_ok in H as (p1 & E & H). cbn [rbind].
  pose proof (setN_len _ _ _ _ E) as L. apply setN_ok in E as [E _]. rewrite <- Ho in E. rewrite (setN_in other x _ E). cbn [rbind].
  apply (pathSecretLoop_blind _ _ _ _ _ _ _ H). rewrite <- (setN_len _ _ _ _ (setN_in other x (Some np) E)) in Ho. congruence.
Qed.

Theorem joining_blind w kpp now g ek sk : groupFromWelcome w kpp now = Ok g ->
  exists g', groupFromWelcome w (with_private kpp ek sk) now = Ok g' /\ same_but_private_keys g g' /\ gr_signaturePriv g' = sk.
Proof.
  unfold groupFromWelcome. cbn [with_private kpp_public kpp_initKey]. intros H.
  apply rbind_ok in H as (ref & -> & H). cbn [rbind]. apply rbind_ok in H as (s & -> & H). cbn [rbind].
  apply rbind_ok in H as ([] & -> & H). cbn [rbind]. apply rbind_ok in H as ([] & -> & H). cbn [rbind].
  unfold groupFromSecrets in *. apply rbind_ok in H as (psk & -> & H). cbn [rbind]. apply rbind_ok in H as (gi & -> & H). cbn [rbind]. cbv zeta in *.
  destruct (findExtensionData (gi_extensions gi) 2) as [raw|]; [|discriminate].
  apply rbind_ok in H as (t & -> & H). cbn [rbind]. apply rbind_ok in H as ([signer|] & -> & H); [|discriminate]. cbn [rbind].
  apply rbind_ok in H as (sigok & -> & H). cbn [rbind]. apply rbind_ok in H as ([] & -> & H). cbn [rbind].
  apply rbind_ok in H as (tagok & -> & H). cbn [rbind]. apply rbind_ok in H as ([] & -> & H). cbn [rbind].
  apply rbind_ok in H as ([] & -> & H). cbn [rbind]. apply rbind_ok in H as ([] & -> & H). cbn [rbind].
  apply rbind_ok in H as (epoch & -> & H). cbn [rbind]. apply rbind_ok in H as (init & -> & H). cbn [rbind].
  apply rbind_ok in H as (interim & -> & H). cbn [rbind]. cbn [with_private kpp_public kpp_encryptionKey kpp_signatureKey].
  apply rbind_ok in H as ([me|] & -> & H); [|discriminate]. cbn [rbind].
  apply rbind_ok in H as (priv0 & E0 & H). pose proof (setN_len _ _ _ _ E0) as L0. apply setN_ok in E0 as [E0 _].
  pose proof (setN_in (repeat None (length t)) (nodeIndexOf me) (Some ek) E0) as E1. rewrite E1. cbn [rbind]. apply setN_len in E1.
  apply rbind_ok in H as (priv & Ep & H). destruct (load t) as [h pt] eqn:El.
  assert (P : exists priv', match gs_pathSecret s with
                            | None => Ok (upd (repeat None (length t)) (N.to_nat (nodeIndexOf me)) (Some ek))
                            | Some ps => processPathSecret (gc_cipherSuite (gi_groupContext gi)) t (upd (repeat None (length t)) (N.to_nat (nodeIndexOf me)) (Some ek)) ps
                                           (commonAncestor (nodeIndexOf me) (nodeIndexOf (gi_signer gi)))
                            end = Ok priv').
  { destruct (gs_pathSecret s) as [ps|]; [|now eexists]. apply (pathSecret_blind _ _ _ _ _ _ Ep). congruence. }
  destruct P as [priv' ->]. cbn [rbind]. apply Ok_inj in H. subst g. eexists. split; [reflexivity|]. split; [|reflexivity].
  unfold same_but_private_keys. splits; reflexivity.
Qed.

Theorem founding_blind gid kpp rnd g ek sk : createGroup gid kpp rnd = Ok g ->
  exists g', createGroup gid (with_private kpp ek sk) rnd = Ok g' /\ same_but_private_keys g g' /\ gr_signaturePriv g' = sk /\
    gr_privTree g' = [Some ek].
Proof.
  unfold createGroup. cbn [with_private kpp_public kpp_encryptionKey kpp_signatureKey]. cbv zeta. intros H.
  apply rbind_ok in H as ([h t] & -> & H). cbn [rbind].
  apply rbind_ok in H as (th & -> & H). cbn [rbind]. apply rbind_ok in H as (d & -> & H). cbn [rbind].
  apply rbind_ok in H as (tag & -> & H). cbn [rbind]. apply rbind_ok in H as (interim & -> & H). cbn [rbind].
  apply rbind_ok in H as (psk & -> & H). cbn [rbind]. apply rbind_ok in H as (init & -> & H). cbn [rbind].
  apply Ok_inj in H. subst g. eexists. split; [reflexivity|]. split; [unfold same_but_private_keys; splits; reflexivity|]. split; reflexivity.
Qed.

Lemma stranger_refused cs d pub priv rnd label content s : cipherSuiteDescriptions cs = Some d ->
  strangers C (sd_sig d) pub priv -> signWithLabel cs priv rnd label content = Ok s ->
  verifyWithLabel cs pub label content s = Ok false.
Proof.
  intros Hd Hp H. unfold signWithLabel in H. unfold verifyWithLabel. apply rbind_ok in H. destruct H as (raw & -> & H).
  rewrite (proj2 (describe_ok _ _) Hd) in *. cbn [rbind] in *. exact (Hp _ _ _ H).
Qed.

(** A content whose signature does not verify is refused by the members of the
    same epoch. *)
Lemma private_refused g g2 b auth rg raw leaf tbs d : crypto_ok C ->
  u64 (gc_epoch (gr_context g)) -> u32 (gr_myLeafIndex g) -> wf_body b -> wf_authData (body_type b) auth -> lenN rg = 4 ->
  same_epoch g g2 -> own_leaf g leaf ->
  putFramedContentTBS wireFormatMLSPrivateMessage (ownContent g b) (gr_context g) = Ok tbs ->
  cipherSuiteDescriptions (gc_cipherSuite (gr_context g)) = Some d ->
  verifyWithLabel (gc_cipherSuite (gr_context g)) (ln_signatureKey leaf) (str "FramedContentTBS") tbs (ad_signature auth) = Ok false ->
  groupEncryptPrivateMessage g (ownContent g b) (mkPrivateMessageContent b auth) rg = Ok raw ->
  exists m e, unmarshal getMlsMessage raw = Ok (MPrivate m) /\ openPrivateMessage g2 m = Err e.
Proof.
  intros HC He Hli Hb Ha Hg (Hctx & Hval & Hes) Hown Htbs Hd Hsig H.
  unfold groupEncryptPrivateMessage in H. cbn [ownContent fc_body] in H. change (mkFramedContent (gc_groupID (gr_context g)) (gc_epoch (gr_context g)) (SMember (gr_myLeafIndex g)) [] b) with (ownContent g b) in H.
  apply rbind_ok in H. destruct H as (secret & Hs & H).
  apply rbind_ok in H. destruct H as (sds & Hsds & H).
  apply rbind_ok in H. destruct H as (m & Hm & H).
  unfold encryptPrivateMessage in Hm.
  apply rbind_ok in Hm. destruct Hm as (ct & Hct & Hm).
  apply rbind_ok in Hm. destruct Hm as (esd & Hesd & Hm). apply Ok_inj in Hm. subst m.
  eexists. eexists. split.
  { apply unmarshal_mls; [|exact H]. cbn. split; [exact He|]. destruct b; cbn; auto. }
  assert (Ht : length (gr_tree g2) = length (gr_tree g)) by (rewrite <- !gr_value_length; congruence).
  unfold encryptPrivateMessageContent in Hct.
  apply rbind_ok in Hct. destruct Hct as (pt & Hpt & Hct).
  apply rbind_ok in Hct. destruct Hct as ([key nonce] & Hkn & Hct).
  apply rbind_ok in Hct. destruct Hct as (aad & Haad & Hct).
  unfold encryptSenderData in Hesd.
  apply rbind_ok in Hesd. destruct Hesd as (skey & Hskey & Hesd).
  apply rbind_ok in Hesd. destruct Hesd as (snonce & Hsnonce & Hesd).
  apply rbind_ok in Hesd. destruct Hesd as (saad & Hsaad & Hesd).
  apply rbind_ok in Hesd. destruct Hesd as (sraw & Hsraw & Hesd).
  unfold openPrivateMessage. rewrite Hctx, Hes. cbn [privm_groupID privm_epoch privm_contentType ownContent fc_groupID fc_epoch fc_body fc_authenticatedData].
  rewrite bytes_eqb_refl, N.eqb_refl. cbn [guard rbind]. rewrite Hsds. cbn [rbind].
  cbn [ownContent fc_groupID fc_epoch fc_body fc_authenticatedData sd_reuseGuard] in *.
  unfold decryptSenderData. cbn [privm_groupID privm_epoch privm_contentType privm_ciphertext privm_encryptedSenderData].
  rewrite Hskey. cbn [rbind]. rewrite Hsnonce. cbn [rbind]. rewrite Hsaad. cbn [rbind].
  rewrite (aead_rt _ _ _ _ _ _ HC Hesd). cbn [rbind].
  assert (Hsd : unmarshal getSenderData sraw = Ok (mkSenderData (gr_myLeafIndex g) 0 rg)).
  { apply unmarshal_ok. pose proof (fun w => senderData_RT _ _ [] w Hsraw) as R. rewrite app_nil_r in R. apply R.
    repeat split; cbn; auto; reflexivity. }
  rewrite Hsd. cbn [rbind sd_leafIndex sd_generation sd_reuseGuard].
  rewrite (messageSecret_same g g2) by assumption. rewrite Hs. cbn [rbind].
  rewrite (padding_zero _ _ _ _ key nonce aad (mkPrivateMessageContent b auth) pt 0); cbn [privm_groupID privm_epoch privm_contentType privm_authenticatedData privm_ciphertext pmc_body]; auto.
  3: { rewrite app_nil_r. now apply aead_rt. }
  2: split; cbn; auto.
  cbn [rbind]. rewrite Hval. unfold own_leaf in Hown. apply getLeaf_some in Hown. rewrite Hown. cbn [rbind].
  unfold authContentVerifySignature, privMsgAuthContent, privContentAuthContent. cbn [ac_wireFormat ac_content ac_auth sd_leafIndex pmc_auth pmc_body privm_groupID privm_epoch privm_authenticatedData].
  unfold ownContent in Htbs. rewrite Htbs. cbn [falseOnPutErr]. rewrite Hsig. cbn. reflexivity.
Qed.

Theorem strangers_not_heard g m data rnd rg raw now : crypto_ok C -> obtained g -> signs_as_stranger g -> same_epoch g m -> lenN rg = 4 ->
  createApplicationMessage g data rnd rg = Ok raw -> exists e, unmarshalAndProcessMessage m raw now = (m, Err e).
Proof.
  intros HC Ho (l & d & Hl & Hd & Hp) Hsame Hg H. pose proof (obtained_sane _ Ho) as Sa.
  unfold createApplicationMessage, signPrivateMessageContent, signAuthenticatedContent in H.
  apply rbind_ok in H. destruct H as (pc & Hpc & H).
  apply rbind_ok in Hpc. destruct Hpc as (ac & Hac & Hpc). apply Ok_inj in Hpc. subst pc.
  apply rbind_ok in Hac. destruct Hac as (tbs & Htbs & Hac).
  apply rbind_ok in Hac. destruct Hac as (sg & Hsg & Hac). apply Ok_inj in Hac. subst ac. cbn [ac_auth ownContent fc_body] in H.
  pose proof (stranger_refused _ _ _ _ _ _ _ _ Hd Hp Hsg) as Hv.
  assert (He : u64 (gc_epoch (gr_context g))) by apply Sa. assert (Hli : u32 (gr_myLeafIndex g)) by apply Sa.
  destruct (private_refused g m (BApplication data) (mkAuthData sg []) rg raw l tbs d HC He Hli I (or_intror eq_refl) Hg Hsame Hl Htbs Hd Hv H) as (pm & e & Hm & Hop).
  exists e. unfold unmarshalAndProcessMessage. rewrite Hm. unfold processPrivateMessage. rewrite Hop. reflexivity.
Qed.

Theorem init_key_checked w kpp now g : groupFromWelcome w kpp now = Ok g -> init_key_opens w kpp.
Proof.
  intros H. apply groupFromWelcome_inv in H as (ref & s & Eref & Es & Epsks & H). unfold decryptGroupSecrets in Es.
  destruct (findSecret w ref) as [sec|] eqn:Ef; [|discriminate]. unfold findSecret in Ef. apply find_some in Ef as [Hin Hr]. apply bytes_eqb_true in Hr.
  apply rbind_ok in Es as (raw & Hd & Es). apply decrypt_only in Hd. apply unmarshal_ok in Es. apply groupSecrets_CANT in Es as (_ & e & He & ->).
  rewrite app_nil_r in Hd. rewrite (writes_groupSecrets _ _ He) in Hd. apply keyPackageRef_only in Eref. exists sec, s. splits; auto. congruence.
Qed.

Theorem joined_signs w kpp now g d : wf_keyPackage (kpp_public kpp) -> cipherSuiteDescriptions (w_cipherSuite w) = Some d -> groupFromWelcome w kpp now = Ok g ->
  can_sign g <-> sig_pair C (sd_sig d) (ln_signatureKey (kp_leafNode (kpp_public kpp))) (kpp_signatureKey kpp).
Proof.
  intros Wk Hd H. apply groupFromWelcome_inv in H as (ref & s & Eref & Es & Epsks & H). apply groupFromSecrets_inv in H.
  destruct H as (psk & gi & raw & t & signer & epoch & init & interim & me & priv & Epsk & Egi & Eraw & Et & Esg & Esig & Etag & Ecs & Ev & Eep & Ein & Eint & Eme & -> & priv0 & Ep0 & Ep).
  destruct (load t) as [h pt] eqn:El. destruct (load_value t h pt El) as (V & P & L). cbn [fst snd].
  assert (Hne : t <> []). { intros ->. apply getLeaf_some in Esg. destruct (N.to_nat _); discriminate. }
  destruct (decoded_tree raw t Et Hne) as ((k & F) & _). pose proof (verifyIntegrity_shaped k t _ now F Ev) as Sh.
  assert (Wl : wf_leafNode (kp_leafNode (kpp_public kpp))) by apply Wk.
  pose proof (own_leaf_found raw k t _ me Et Sh Wl Eme) as Hl.
  apply findLeaf_some in Eme as (l' & e & Hme & Hg & _). pose proof Hg as Hn. apply getLeaf_some in Hn.
  destruct F as [F1 F2]. rewrite (numLeaves_tree t k F1 F2) in Hme. rewrite (getLeaf_at k t me Sh Hme), Hl in Hg. apply Ok_inj in Hg. injection Hg as Hg. rewrite Hg.
  unfold can_sign, own_leaf, gr_value. cbn [gr_heap gr_tree gr_myLeafIndex gr_context gr_signaturePriv]. rewrite V, Ecs, Hd. cbn [option_map].
  change (leaf_position me) with (nodeIndexOf me). rewrite Hn. split.
  - intros (l & alg & E1 & E2 & E3). injection E1 as <-. injection E2 as <-. exact E3.
  - intros E3. exists l', (sd_sig d). auto.
Qed.
End WithCrypto.
