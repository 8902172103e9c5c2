(** Making key packages, groups, messages and Welcomes succeeds. *)
From Verif Require Export SpecCreate AcceptFacts EpochFacts.

Section WithCrypto.
Context {C : crypto} (OK : crypto_ok C) (Cp : compact C).

(** ** Signatures and encryption *)
Lemma sign_total cs alg pub priv rnd label b : option_map sd_sig (cipherSuiteDescriptions cs) = Some alg -> sig_pair C alg pub priv ->
  lenN label <= 64 -> lenN b < 2 ^ 29 -> exists s, signWithLabel cs priv rnd label b = Ok s /\ lenN s < 2 ^ 16.
Proof.
  intros Ha P Hl Hb. destruct (cipherSuiteDescriptions cs) as [d|] eqn:Hd; [|discriminate]. cbn in Ha. injection Ha as Ha.
  unfold signWithLabel.
  assert (Z : lenN (enc_labelled label b) < 2 ^ 30).
  { unfold enc_labelled. rewrite !lenN_app. pose proof (vec_len_le b). pose proof (vec_len_le (str "MLS 1.0 " ++ label)) as V. rewrite lenN_app in V.
    change (lenN (str "MLS 1.0 ")) with 8 in *. change (2 ^ 29) with 536870912 in *. change (2 ^ 30) with 1073741824 in *. lia. }
  rewrite (fills_labelled _ _ Z). cbn [rbind]. unfold describe. rewrite Hd. cbn [rbind]. rewrite Ha.
  destruct (P rnd (enc_labelled label b)) as (s & E & _). rewrite E. exists s. split; [reflexivity|].
  unfold sigSign in E. destruct (cr_sign C alg priv rnd _) as [s'|] eqn:Es.
  - assert (s' = s) by (destruct alg; try (destruct (_ =? _)); congruence). subst s'. eapply cp_sign; eauto.
  - destruct alg; try (destruct (_ =? _)); discriminate.
Qed.
Lemma known_sig cs alg : option_map sd_sig (cipherSuiteDescriptions cs) = Some alg -> known_suite cs.
Proof. intros H. unfold known_suite. rewrite suite_eq. destruct (cipherSuiteDescriptions cs) as [d|]; [|discriminate]. eauto. Qed.
Lemma seals cs key nonce aad pt : known_suite cs -> lenN key = keySize cs -> lenN nonce = nonceSize cs ->
  aeadSeal cs key nonce aad pt = Ok (sealed cs key nonce aad pt).
Proof.
  intros Kn Hk Hn. destruct (describe_known _ Kn) as (d & Hd). unfold aeadSeal. rewrite Hd. cbn [rbind]. apply describe_some in Hd.
  unfold keySize, nonceSize, sealed in *. rewrite (aeadOf_some _ _ Hd) in *. rewrite Hk, Hn, !N.eqb_refl. reflexivity.
Qed.
Lemma lenN_sealed cs key nonce aad pt : lenN (sealed cs key nonce aad pt) = lenN pt + 16.
Proof. apply (ok_aead_len _ OK). Qed.
Lemma nonce_12 cs : known_suite cs -> 4 <= nonceSize cs.
Proof. intros (d & Hd). unfold nonceSize. rewrite suite_eq in Hd. rewrite (aeadOf_some _ _ Hd). destruct (sd_aead d); vm_compute; discriminate. Qed.

(** ** Private messages *)
Lemma own_place g l : sane g -> own_leaf g l -> exists k p, fits k /\ shaped k (gr_value g) /\ lenN (gr_tree g) = node_count k /\ length p = k /\ number k p = leaf_position (gr_myLeafIndex g).
Proof.
  intros Sa Ho. unfold own_leaf in Ho. assert (Hlt : leaf_position (gr_myLeafIndex g) < lenN (gr_value g)).
  { assert (N.to_nat (leaf_position (gr_myLeafIndex g)) < length (gr_value g))%nat by (apply nth_error_Some; congruence). unfold lenN. lia. }
  destruct (sane_shape _ Sa) as [E|(k & Sh)]; [rewrite E in Hlt; unfold lenN in Hlt; cbn in Hlt; lia|].
  pose proof (shaped_full _ _ Sh) as [Hk Hn]. rewrite Hn in Hlt. destruct (designated_path k (gr_myLeafIndex g) Hk Hlt) as (_ & H1 & H2).
  exists k. eexists. splits; eauto. unfold gr_value, deref in Hn. now rewrite lenN_map in Hn.
Qed.

Lemma private_total g content pc rg l : sane g -> own_leaf g l -> known_suite (gc_cipherSuite (gr_context g)) -> lenN rg = 4 ->
  wf_privateMessageContent pc -> wf_framedContent content ->
  lenN (enc_framedContent content) + lenN (enc_privateMessageContent pc) < 2 ^ 28 ->
  exists raw, groupEncryptPrivateMessage g content pc rg = Ok raw.
Proof.
  intros Sa Ho Kn Hrg Wpc Wc Hz. destruct (own_place g l Sa Ho) as (k & p & Hk & Sh & Hn & Hp1 & Hp2).
  unfold groupEncryptPrivateMessage. cbv zeta. change (body_type (fc_body content)) with (content_type (fc_body content)).
  rewrite (proj2 (gives_messageSecret g k p (gr_myLeafIndex g) (fc_body content) 0 Hk Hn Hp1 Hp2 eq_refl) Kn). cbn [rbind].
  set (cs := gc_cipherSuite (gr_context g)) in *.
  rewrite (proj2 (gives_deriveSecret cs (gr_epochSecret g) secretLabelSenderData)) by (split; [exact Kn|vm_compute; reflexivity]). cbn [rbind].
  set (s := content_secret _ _ _ _ _). clearbody s. set (sds := DeriveSecret cs _ _). clearbody sds.
  unfold encryptPrivateMessage, encryptPrivateMessageContent. cbn [sd_reuseGuard].
  assert (Zpc : lenN (enc_privateMessageContent pc) < 2 ^ 30) by lia.
  rewrite (fills_privateMessageContent pc Wpc Zpc). cbn [rbind].
  assert (Ln : lenN (ratchet_nonce cs s 0) = nonceSize cs) by (unfold ratchet_nonce, DeriveTreeSecret, ExpandWithLabel; apply (ok_expand _ OK)).
  rewrite (proj2 (gives_keyAndNonce cs s 0 rg)) by (split; [exact Kn|rewrite Hrg, Ln; now apply nonce_12]). cbn [rbind].
  unfold enc_framedContent in Hz. rewrite !lenN_app, !lenN_num in Hz.
  assert (Z1 : lenN (enc_privateContentAAD (fc_groupID content) (fc_epoch content) (body_type (fc_body content)) (fc_authenticatedData content)) < 2 ^ 30).
  { unfold enc_privateContentAAD. rewrite !lenN_app, !lenN_num. lia. }
  rewrite (fills_privateContentAAD _ _ _ _ Z1). cbn [rbind].
  rewrite (seals cs _ _ _ _ Kn); [|unfold ratchet_key, DeriveTreeSecret, ExpandWithLabel; apply (ok_expand _ OK)|now rewrite lenN_xor]. cbn [rbind].
  set (ct := sealed cs _ _ _ _). assert (Lc : lenN ct = lenN (enc_privateMessageContent pc) + 16) by apply lenN_sealed. clearbody ct.
  unfold encryptSenderData. rewrite (proj2 (gives_senderDataKey cs sds ct) Kn). cbn [rbind]. rewrite (proj2 (gives_senderDataNonce cs sds ct) Kn). cbn [rbind].
  assert (Z2 : lenN (enc_senderDataAAD (fc_groupID content) (fc_epoch content) (body_type (fc_body content))) < 2 ^ 30).
  { unfold enc_senderDataAAD. rewrite !lenN_app, !lenN_num. lia. }
  rewrite (fills_senderDataAAD _ _ _ Z2). cbn [rbind].
  assert (Z3 : lenN (enc_senderData (mkSenderData (gr_myLeafIndex g) 0 rg)) = 12).
  { unfold enc_senderData. cbn [sd_leafIndex sd_generation sd_reuseGuard]. rewrite !lenN_app, !lenN_num, Hrg. reflexivity. }
  rewrite fills_senderData by (rewrite Z3; reflexivity). cbn [rbind].
  rewrite (seals cs _ _ _ _ Kn); [|unfold sender_data_key, ExpandWithLabel; apply (ok_expand _ OK)|unfold sender_data_nonce, ExpandWithLabel; apply (ok_expand _ OK)]. cbn [rbind].
  set (es := sealed cs _ _ _ _). assert (Le : lenN es = 28) by (unfold es; rewrite lenN_sealed, Z3; reflexivity). clearbody es.
  eexists. apply fills_mlsMessage.
  - cbn [wf_mlsMessage]. unfold wf_privateMessage. cbn [privm_epoch privm_contentType]. split; [apply Wc|]. destruct (fc_body content); cbn; auto.
  - unfold enc_mlsMessage, enc_privateMessage. cbn [privm_groupID privm_epoch privm_contentType privm_authenticatedData privm_encryptedSenderData privm_ciphertext].
    rewrite !lenN_app, !lenN_num. pose proof (vec_len_le es). pose proof (vec_len_le ct).
    change (2 ^ 28) with 268435456 in *. change (2 ^ 30) with 1073741824 in *. lia.
Qed.

Ltac big := change (2 ^ 16) with 65536 in *; change (2 ^ 26) with 67108864 in *; change (2 ^ 27) with 134217728 in *; change (2 ^ 28) with 268435456 in *; change (2 ^ 29) with 536870912 in *; change (2 ^ 30) with 1073741824 in *; lia.

Lemma content_total g content rnd : (exists i, fc_sender content = SMember i) -> can_sign g -> wf_framedContent content ->
  lenN (enc_framedContent content) + lenN (enc_groupContext (gr_context g)) < 2 ^ 28 ->
  exists sig, signPrivateMessageContent (gc_cipherSuite (gr_context g)) (gr_signaturePriv g) rnd content (gr_context g) = Ok (mkPrivateMessageContent (fc_body content) (mkAuthData sig [])) /\ lenN sig < 2 ^ 16.
Proof.
  intros (i & Hs) (l & alg & _ & Ha & P) W Hz. unfold signPrivateMessageContent, signAuthenticatedContent.
  assert (Z : lenN (enc_framedContentTBS 2 content (gr_context g)) < 2 ^ 29).
  { unfold enc_framedContentTBS. rewrite Hs, !lenN_app, !lenN_num. big. }
  assert (Z' : lenN (enc_framedContentTBS 2 content (gr_context g)) < 2 ^ 30) by big.
  change wireFormatMLSPrivateMessage with 2. rewrite (fills_framedContentTBS 2 content (gr_context g) W Z'). cbn [rbind].
  destruct (sign_total _ _ _ _ rnd (str "FramedContentTBS") (enc_framedContentTBS 2 content (gr_context g)) Ha P) as (s & E & Ls); [vm_compute; discriminate|exact Z|].
  rewrite E. cbn [rbind ac_auth]. eauto.
Qed.
Lemma own_wf g b : sane g -> wf_body b -> wf_framedContent (ownContent g b).
Proof. intros Sa Wb. unfold ownContent. split; cbn; [apply (sane_epoch _ Sa)|split; [apply (sane_index _ Sa)|exact Wb]]. Qed.
Lemma own_size g b : lenN (enc_groupContext (gr_context g)) < 2 ^ 30 ->
  lenN (enc_framedContent (ownContent g b)) <= lenN (enc_groupContext (gr_context g)) + lenN (enc_body b) + 15.
Proof.
  intros H. unfold enc_framedContent, ownContent. cbn [fc_groupID fc_epoch fc_sender fc_authenticatedData fc_body enc_sender]. unfold enc_groupContext in *. rewrite !lenN_app, !lenN_num in *.
  change (lenN (vec [])) with 1. lia.
Qed.
Lemma sign_suite g : can_sign g -> known_suite (gc_cipherSuite (gr_context g)).
Proof. intros (l & alg & _ & Ha & _). eapply known_sig; eauto. Qed.

Theorem application_total g data rnd rg : obtained g -> can_sign g -> lenN rg = 4 ->
  lenN (enc_groupContext (gr_context g)) + lenN data < 2 ^ 26 -> exists raw, createApplicationMessage g data rnd rg = Ok raw.
Proof.
  intros O Cs Hrg Hz. pose proof (obtained_sane _ O) as Sa. unfold createApplicationMessage. cbv zeta.
  assert (W : wf_framedContent (ownContent g (BApplication data))) by (apply own_wf; [exact Sa|exact I]).
  pose proof (own_size g (BApplication data)) as Zo. cbn [enc_body] in Zo. pose proof (vec_len_le data) as Zd.
  destruct (content_total g (ownContent g (BApplication data)) rnd (ex_intro _ _ eq_refl) Cs W) as (sig & E & Ls); [big|].
  rewrite E. cbn [rbind]. pose proof Cs as (l & alg & Ho & _). eapply private_total; eauto.
  - now apply sign_suite.
  - split; [exact I|right; reflexivity].
  - unfold enc_privateMessageContent, enc_authData. cbn [pmc_body pmc_auth ownContent fc_body enc_body ad_signature]. rewrite !lenN_app.
    change (lenN (@nil byte)) with 0. pose proof (vec_len_le sig). big.
Qed.

(** ** Key packages and groups *)
Theorem package_total cs cred t0 t1 r1 r2 r3 r4 r5 : known_suite cs -> wf_credential cred -> lenN (enc_credential cred) < 2 ^ 26 ->
  exists kpp, generateKeyPairPackage cs cred t0 t1 r1 r2 r3 r4 r5 = Ok kpp.
Proof.
  intros Kn Wc Hz. destruct (describe_known _ Kn) as (d & Hd). unfold generateKeyPairPackage, generateEncryptionKeyPair, generateSignatureKeyPair.
  rewrite Hd. cbn [rbind]. apply describe_some in Hd.
  pose proof (cp_hpkeKey _ Cp (sd_kem d) r1) as K1. pose proof (cp_hpkeKey _ Cp (sd_kem d) r2) as K2. pose proof (cp_sigKey _ Cp (sd_sig d) r3) as K3.
  pose proof (ok_sigKey _ OK (sd_sig d) r3) as P.
  destruct (cr_generateKeyPair C (sd_kem d) r1) as [ip iv]. destruct (cr_generateKeyPair C (sd_kem d) r2) as [ep ev]. destruct (cr_sigKeyPair C (sd_sig d) r3) as [sp sv].
  cbn [fst snd] in *. set (leaf := mkLeafNode ep sp cred _ _ _ _ _ _).
  assert (Ha : option_map sd_sig (cipherSuiteDescriptions cs) = Some (sd_sig d)) by now rewrite Hd.
  assert (Hu : u16 cs) by (revert Hd; clear; unfold cipherSuiteDescriptions, u16; destruct cs as [|[[[?|?|]|[?|?|]|]|[[?|?|]|[?|?|]|]|]]; try discriminate; intros; reflexivity).
  assert (Wl : wf_leafNode leaf).
  { unfold leaf, wf_leafNode. cbn [ln_credential ln_capabilities ln_extensions ln_source ln_lifetime ln_parentHash]. splits; auto.
    - unfold wf_capabilities. cbn [caps_versions caps_cipherSuites caps_extensions caps_proposals caps_credentials]. splits; repeat constructor; auto.
    - left. splits; auto. eexists. split; [reflexivity|]. split; apply timeUnix_64. }
  pose proof (vec_len_le ep) as V1. pose proof (vec_len_le sp) as V2. pose proof (vec_len_le ip) as V3.
  assert (Z : lenN (enc_leafNodeContents leaf) < 2 ^ 27).
  { unfold enc_leafNodeContents, leaf. cbn [ln_encryptionKey ln_signatureKey ln_credential ln_capabilities ln_source ln_lifetime ln_extensions].
    change (leafNodeSourceKeyPackage =? 1) with true. cbv iota. unfold enc_lifetime, enc_capabilities. cbn [caps_versions caps_cipherSuites caps_extensions caps_proposals caps_credentials].
    rewrite !lenN_app, !lenN_num. unfold vecOf. cbn [map concat]. 
    assert (X : forall b, lenN b < 64 -> lenN (vec b) <= 68) by (intros b Hb; pose proof (vec_len_le b); big).
    assert (Y1 : lenN (vec (num 2 1 ++ [])) <= 68) by (apply X; reflexivity). assert (Y2 : lenN (vec (num 2 cs ++ [])) <= 68) by (apply X; rewrite lenN_app, lenN_num; reflexivity).
    assert (Y3 : lenN (vec (num 2 2 ++ [])) <= 68) by (apply X; reflexivity). assert (Y4 : lenN (vec (num 2 1 ++ num 2 2 ++ num 2 3 ++ [])) <= 68) by (apply X; reflexivity).
    unfold enc_extensions, vecOf. cbn [map concat]. change (lenN (vec [])) with 1. big. }
  assert (Zt : lenN (enc_leafNodeTBS leaf [] 0) < 2 ^ 27).
  { unfold enc_leafNodeTBS. change ((ln_source leaf =? 2) || (ln_source leaf =? 3)) with false. cbv iota. now rewrite app_nil_r. }
  unfold leafNodeSign. assert (Zt' : lenN (enc_leafNodeTBS leaf [] 0) < 2 ^ 30) by big. rewrite (fills_leafNodeTBS _ _ _ Wl Zt'). cbn [rbind].
  destruct (sign_total cs _ _ _ r4 (str "LeafNodeTBS") (enc_leafNodeTBS leaf [] 0) Ha P) as (sig & Es & Ls); [vm_compute; discriminate|big|].
  rewrite Es. cbn [rbind]. set (leaf' := mkLeafNode (ln_encryptionKey leaf) _ _ _ _ _ _ _ sig). 
  assert (Zl : lenN (enc_leafNode leaf') < 2 ^ 28).
  { unfold enc_leafNode. change (enc_leafNodeContents leaf') with (enc_leafNodeContents leaf). rewrite lenN_app. cbn [leaf' ln_signature]. pose proof (vec_len_le sig). big. }
  unfold keyPackageSign. set (kp := mkKeyPackage 1 cs ip leaf' [] []).
  assert (Wk : wf_keyPackage kp). { unfold wf_keyPackage, kp. cbn. splits; auto; try reflexivity. }
  assert (Zk : lenN (enc_keyPackageTBS kp) < 2 ^ 29).
  { unfold enc_keyPackageTBS, kp. cbn [kp_version kp_cipherSuite kp_initKey kp_leafNode kp_extensions]. rewrite !lenN_app, !lenN_num. change (lenN (enc_extensions [])) with 1. big. }
  assert (Zk' : lenN (enc_keyPackageTBS kp) < 2 ^ 30) by big. rewrite (fills_keyPackageTBS _ Wk Zk'). cbn [rbind].
  destruct (sign_total cs _ _ _ r5 (str "KeyPackageTBS") (enc_keyPackageTBS kp) Ha P) as (sig2 & Es2 & _); [vm_compute; discriminate|exact Zk|].
  change (kp_cipherSuite kp) with cs. rewrite Es2. cbn [rbind]. eauto.
Qed.

Theorem group_total gid kpp rnd : known_suite (kp_cipherSuite (kpp_public kpp)) -> wf_leafNode (kp_leafNode (kpp_public kpp)) ->
  lenN (enc_leafNode (kp_leafNode (kpp_public kpp))) < 2 ^ 26 -> exists g, createGroup gid kpp rnd = Ok g.
Proof.
  intros Kn W Hz. unfold createGroup. cbv zeta. rewrite first_leaf. cbn [rbind]. set (l := kp_leafNode (kpp_public kpp)) in *. set (cs := kp_cipherSuite (kpp_public kpp)) in *.
  pose proof Kn as (d & Hd). rewrite suite_eq in Hd.
  assert (En : encodable (deref [NLeaf l] [Some 0%nat])).
  { intros n [E|[]]. cbn in E. injection E as <-. exists (enc_node (NLeaf l)). apply fills_node; [exact W|]. cbn [enc_node]. rewrite !lenN_app, !lenN_num. big. }
  change (deref [NLeaf l] [Some 0%nat]) with [Some (NLeaf l)] in *. rewrite (rootTreeHash_complete 0 cs _ d (single_shaped l) OK En Hd). cbn [rbind]. unfold describe. rewrite Hd. cbn [rbind].
  set (ctx := mkGroupContext _ _ _ _ _ _ _). assert (Kc : known_suite (gc_cipherSuite ctx)) by exact Kn.
  rewrite (proj2 (gives_confirmation ctx rnd) Kc). cbn [rbind].
  assert (Zt : short (confirmation_tag ctx rnd)).
  { unfold short, confirmation_tag, MAC. rewrite (ok_hmac _ OK). destruct (hashOf _); reflexivity. }
  set (tag := confirmation_tag ctx rnd) in *. clearbody tag.
  rewrite (proj2 (gives_interim cs _ tag) (conj Kn Zt)). cbn [rbind].
  rewrite (proj2 (gives_pskSecret cs [] [] eq_refl) (conj Kn (Forall_nil _))). cbn [rbind].
  rewrite (proj2 (gives_deriveSecret cs rnd secretLabelInit)) by (split; [exact Kn|vm_compute; reflexivity]). cbn [rbind]. eauto.
Qed.

(** ** Welcomes *)
Lemma joined_wf ls : forall t t', Forall wf_leafNode ls -> wf_nodes t -> one_by_one SpecCommitTree.joined t ls t' -> wf_nodes t'.
Proof.
  intros t t' F W H. revert F W. induction H as [t0|t0 x t1 ls t2 J _ IH]; intros F W; [exact W|]. inversion F; subst. apply IH; [assumption|].
  destruct J as (k & t3 & li & _ & Sh & A & [->|[-> _]]); [eapply wf_added; eauto|].
  eapply wf_added; eauto. unfold wf_nodes, grown. apply Forall_app. split; [exact W|]. apply Forall_forall. intros o Ho. apply repeat_spec in Ho. subst o. exact I.
Qed.
Lemma key_of cs pub d : cipherSuiteDescriptions cs = Some d -> encrypts_to cs pub -> exists priv, hpke_pair C (sd_kem d) pub priv.
Proof. intros Hd (d' & priv & Hd' & P). rewrite suite_eq in Hd'. assert (d' = d) by congruence. subst. eauto. Qed.
Lemma secrets_total cs s egi kps : known_suite cs -> lenN (enc_groupSecrets s) < 2 ^ 26 -> lenN egi < 2 ^ 29 -> forall rnds,
  (forall k, In k kps -> wf_keyPackage k /\ kp_cipherSuite k = cs /\ encrypts_to cs (kp_initKey k) /\ short (enc_keyPackage k)) ->
  exists l, encryptSecretsFor cs s egi kps rnds = Ok l.
Proof.
  intros Kn Zs Ze. induction kps as [|k kps IH]; intros rnds H; cbn [encryptSecretsFor]; [eauto|].
  destruct (H k (or_introl eq_refl)) as (Wk & Hc & He & Zk). assert (Kk : known_suite (kp_cipherSuite k)) by now rewrite Hc.
  rewrite (proj2 (gives_keyPackageRef k Wk) (conj Kk Zk)). cbn [rbind]. unfold groupSecretsEncrypt.
  assert (Zs' : lenN (enc_groupSecrets s) < 2 ^ 30) by big. rewrite (fills_groupSecrets s Zs'). cbn [rbind]. unfold encryptWithLabel.
  assert (Z : lenN (enc_labelled (str "Welcome") egi) < 2 ^ 30).
  { unfold enc_labelled. rewrite !lenN_app. pose proof (vec_len_le egi). change (lenN (vec (str "MLS 1.0 " ++ str "Welcome"))) with 16. big. }
  rewrite (fills_labelled _ _ Z). cbn [rbind]. destruct (describe_known _ Kn) as (d & Hd). rewrite Hd. cbn [rbind]. apply describe_some in Hd.
  destruct (key_of _ _ _ Hd He) as (priv & P). destruct (P (sd_kdf d) (sd_aead d) (enc_labelled (str "Welcome") egi) (hd [] rnds) (enc_groupSecrets s)) as (ko & ct & E & _).
  rewrite E. cbn [rbind]. destruct (IH (tl rnds)) as (l & El); [intros k' Hk'; apply H; now right|]. rewrite El. cbn [rbind]. eauto.
Qed.
Lemma adds_size kps : lenN (concat (map enc_proposalOrRef (map (fun k => PorProposal (PAdd k)) kps))) = lenN (concat (map enc_keyPackage kps)) + 3 * lenN kps.
Proof.
  induction kps as [|k kps IH]; [reflexivity|]. cbn [map concat enc_proposalOrRef enc_proposal]. rewrite !lenN_app, !lenN_num, IH.
  replace (lenN (k :: kps)) with (1 + lenN kps) by (unfold lenN; cbn [length]; lia). lia.
Qed.
Lemma in_size (k : keyPackage) kps : In k kps -> lenN (enc_keyPackage k) <= lenN (concat (map enc_keyPackage kps)).
Proof.
  induction kps as [|x kps IH]; [intros []|]. cbn [map concat]. rewrite lenN_app. intros [->|H]; [lia|]. specialize (IH H). lia.
Qed.

Lemma joined_shaped ls : forall t t', one_by_one SpecCommitTree.joined t ls t' -> ls <> [] -> exists k, shaped k t'.
Proof.
  intros t t' H. induction H as [t0|t0 x t1 ls t2 J H IH]; intros Hne; [contradiction|]. destruct ls as [|y ls]; [|now apply IH].
  inversion H; subst. destruct J as (k & t3 & li & _ & _ & A & _). exists k. apply A.
Qed.
Lemma tree_total t : wf_nodes t -> lenN (enc_ratchetTree t) < 2 ^ 30 -> putRatchetTree t = Ok (enc_ratchetTree t).
Proof.
  intros H. apply (fun x => x). change (encodes (putRatchetTree t) (enc_ratchetTree t)). unfold putRatchetTree, enc_ratchetTree. rewrite trimBlanks_chop. apply fills_vecOf.
  unfold wf_nodes in H. rewrite Forall_forall in *. intros o Ho. apply fills_optionalNode. apply H, chop_incl, Ho.
Qed.
Lemma mac_small cs k m : lenN (MAC cs k m) <= 64.
Proof. unfold MAC. rewrite (ok_hmac _ OK). destruct (hashOf cs); vm_compute; discriminate. Qed.
Lemma info_total cs ctx ext tag signer sig joiner psk : gc_cipherSuite ctx = cs -> known_suite cs ->
  lenN (enc_groupInfo (mkGroupInfo ctx ext tag signer sig)) < 2 ^ 28 ->
  exists egi, groupInfoEncrypt (mkGroupInfo ctx ext tag signer sig) joiner psk = Ok egi /\ lenN egi < 2 ^ 28 + 16.
Proof.
  intros Hc Kn Hz. unfold groupInfoEncrypt. cbv zeta. cbn [gi_groupContext]. rewrite Hc. unfold welcomeKeyNonce. rewrite (proj2 (gives_welcome cs joiner psk) Kn). cbn [rbind].
  rewrite (proj2 (gives_nonceSize cs) Kn). cbn [rbind]. set (ws := welcome_secret cs joiner psk). clearbody ws.
  rewrite (proj2 (gives_expand_short cs ws (str "nonce") [] (nonceSize cs))) by (splits; solve [exact Kn | apply nonceSize_ok | unfold short; vm_compute; reflexivity]). cbn [rbind].
  rewrite (proj2 (gives_keySize cs) Kn). cbn [rbind].
  rewrite (proj2 (gives_expand_short cs ws (str "key") [] (keySize cs))) by (splits; solve [exact Kn | apply keySize_ok | unfold short; vm_compute; reflexivity]). cbn [rbind].
  rewrite fills_groupInfo by big. cbn [rbind]. rewrite seals; [|exact Kn|unfold ExpandWithLabel; apply (ok_expand _ OK)|unfold ExpandWithLabel; apply (ok_expand _ OK)].
  eexists. split; [reflexivity|]. rewrite lenN_sealed. big.
Qed.

Theorem welcome_total g kps rs ri rh rg : obtained g -> can_sign g -> can_invite g kps -> lenN rg = 4 ->
  exists g1 w raw, createWelcome g kps rs ri rh rg = (g1, Ok (w, raw)).
Proof.
  intros O Cs [Hne Hk Wn (n & Am & Hn) Hz Ht] Hrg. pose proof (obtained_sane _ O) as Sa. pose proof (sign_suite _ Cs) as Kn.
  pose proof Kn as (d & Hd). rewrite suite_eq in Hd.
  set (ps := map (fun k => (PAdd k, gr_myLeafIndex g)) kps) in *.
  assert (P1 : map fst ps = map PAdd kps) by (unfold ps; now rewrite map_map).
  assert (P2 : additionsOf ps = map kp_leafNode kps) by (unfold ps, additionsOf; clear; induction kps as [|k kps IH]; cbn; congruence).
  assert (P3 : updatesOf ps = [] /\ removalsOf ps = []) by (unfold ps, updatesOf, removalsOf; clear; induction kps as [|k kps IH]; cbn; auto).
  destruct P3 as [P3 P4].
  destruct (vapply_succeeds (gr_value g) ps n (sane_shape _ Sa)) as (t' & Ev); [rewrite P4; constructor|rewrite P3; intros ? ? []|rewrite P4; intros ? []|exact Am|rewrite P2, lenN_map; exact Hn|].
  pose proof (vapply_one_by_one _ _ _ (sane_shape _ Sa) Ev) as AP. pose proof (Ht _ AP) as Zt.
  rewrite P1, adds_only, <- (adds_only _ _ [gr_myLeafIndex g]) in Ev.
  destruct (applyH_of_value _ _ _ _ _ (proj1 (sane_consistent _ Sa)) Ev) as (h & t & Ea & Et & _).
  assert (Wt : wf_nodes t').
  { destruct AP as (t1 & t2 & A1 & A2 & A3). rewrite P3 in A1. rewrite P4 in A2. rewrite P2 in A3. inversion A1; subst. inversion A2; subst. eapply joined_wf; [|exact Wn|exact A3].
    apply Forall_forall. intros l Hl. apply in_map_iff in Hl. destruct Hl as (k & <- & Hin). apply Hk in Hin. apply Hin. }
  assert (Sh : exists k, shaped k t').
  { destruct AP as (t1 & t2 & _ & _ & A3). eapply joined_shaped; [exact A3|]. rewrite P2. destruct kps; [contradiction|discriminate]. }
  destruct Sh as (k & Sh). assert (Zt' : lenN (enc_ratchetTree t') < 2 ^ 30) by big.
  pose proof (putRatchetTree_encodable _ _ (tree_total t' Wt Zt')) as En.
  clear ps P1 P2 P3 P4 Ht Ev AP Am Hn n. unfold createWelcome. destruct kps as [|k0 kps0]; [contradiction|]. rewrite Ea. set (kps := k0 :: kps0) in *. clearbody kps.
  unfold finishWelcome. cbv zeta. rewrite Et. clear Ea Et.
  rewrite (rootTreeHash_complete k (gc_cipherSuite (gr_context g)) t' d Sh OK En Hd). cbn [rbind].
  pose proof (tree_hash_small (gc_cipherSuite (gr_context g)) k t' OK) as Lth. set (th := tree_hash _ _ _ _ _ _) in *. clearbody th.
  rewrite (proj2 (gives_extractSize (gc_cipherSuite (gr_context g))) Kn). cbn [rbind].
  rewrite (proj2 (gives_pskSecret (gc_cipherSuite (gr_context g)) [] [] eq_refl) (conj Kn (Forall_nil _))). cbn [rbind].
  set (psk := psk_secret _ _). clearbody psk.
  set (b := BCommit (mkCommit _ None)).
  assert (Wb : wf_body b).
  { unfold b. cbn [wf_body]. split; [|exact I]. cbn [c_proposals]. apply Forall_forall. intros x Hx. apply in_map_iff in Hx. destruct Hx as (k1 & <- & Hin). apply Hk in Hin. apply Hin. }
  assert (Zb : lenN (enc_body b) < 2 ^ 26 + 16).
  { unfold b. cbn [enc_body]. unfold enc_commit. cbn [c_proposals c_path opt]. rewrite lenN_app, lenN_num. unfold vecOf.
    pose proof (vec_len_le (concat (map enc_proposalOrRef (map (fun k => PorProposal (PAdd k)) kps)))) as V. rewrite adds_size in V. big. }
  pose proof (own_wf g b Sa Wb) as Wc. pose proof (own_size g b) as Zo. 
  destruct (content_total g (ownContent g b) rs (ex_intro _ _ eq_refl) Cs Wc) as (sig & Esig & Ls); [big|]. rewrite Esig. cbn [rbind].
  cbn [privContentAuthContent pmc_body pmc_auth ac_wireFormat ac_content ac_auth ad_signature]. pose proof (vec_len_le sig) as Vs.
  assert (Zc : short (enc_confirmedTranscriptHashInput wireFormatMLSPrivateMessage (ownContent g b) sig)).
  { unfold short, enc_confirmedTranscriptHashInput. rewrite !lenN_app, lenN_num. big. }
  rewrite (proj2 (gives_confirmed (gc_cipherSuite (gr_context g)) wireFormatMLSPrivateMessage (ownContent g b) sig (gr_interimTranscriptHash g) Wc (ex_intro _ _ eq_refl)) (conj Kn Zc)). cbn [rbind].
  assert (Lcf : lenN (confirmed_transcript_hash (gc_cipherSuite (gr_context g)) (gr_interimTranscriptHash g) wireFormatMLSPrivateMessage (ownContent g b) sig) <= 64).
  { unfold confirmed_transcript_hash, Hash. rewrite (ok_hash _ OK). destruct (hashOf _); vm_compute; discriminate. }
  set (cf := confirmed_transcript_hash _ _ _ _ _) in *. clearbody cf. 
  assert (Kc : known_suite (gc_cipherSuite (nextContext (gr_context g) th cf))) by exact Kn.
  assert (Zx : lenN (enc_groupContext (nextContext (gr_context g) th cf)) < 2 ^ 26 + 256).
  { unfold enc_groupContext, nextContext in *. cbn [gc_version gc_cipherSuite gc_groupID gc_epoch gc_treeHash gc_confirmedTranscriptHash gc_extensions] in *.
    rewrite !lenN_app, !lenN_num in *. pose proof (vec_len_le th). pose proof (vec_len_le cf). big. }
  assert (Ec : gc_cipherSuite (nextContext (gr_context g) th cf) = gc_cipherSuite (gr_context g)) by reflexivity.
  set (ctx := nextContext (gr_context g) th cf) in *. clearbody ctx.
  assert (Zx' : short (enc_groupContext ctx)) by (unfold short; big).
  rewrite (proj2 (gives_joiner ctx (gr_initSecret g) (zeros (secretSize (gc_cipherSuite (gr_context g))))) (conj Kc Zx')). cbn [rbind].
  assert (Lj : lenN (joiner_secret ctx (gr_initSecret g) (zeros (secretSize (gc_cipherSuite (gr_context g))))) < 2 ^ 16).
  { unfold joiner_secret, ExpandWithLabel. rewrite (ok_expand _ OK). unfold secretSize. destruct (kdfOf _); reflexivity. }
  set (joiner := joiner_secret _ _ _) in *. clearbody joiner.
  rewrite (proj2 (gives_epoch ctx joiner psk) (conj Kc Zx')). cbn [rbind]. set (es := epoch_secret _ _ _). clearbody es.
  rewrite (proj2 (gives_confirmation ctx es) Kc). cbn [rbind].
  assert (Lt : lenN (confirmation_tag ctx es) <= 64) by (unfold confirmation_tag; apply mac_small).
  set (tag := confirmation_tag ctx es) in *. clearbody tag.
  rewrite (tree_total t' Wt) by big. cbn [rbind]. set (rt := enc_ratchetTree t') in *. clearbody rt.
  unfold groupInfoSign. set (gi := mkGroupInfo ctx _ tag (gr_myLeafIndex g) []).
  assert (Zg : lenN (enc_groupInfoTBS gi) < 2 ^ 27 + 2 ^ 16).
  { unfold enc_groupInfoTBS, gi. cbn [gi_groupContext gi_extensions gi_confirmationTag gi_signer]. rewrite !lenN_app, lenN_num. unfold enc_extensions, vecOf, enc_extension. cbn [map concat ext_type ext_data].
    pose proof (vec_len_le rt) as V1. pose proof (vec_len_le tag) as V2. pose proof (vec_len_le ((num 2 2 ++ vec rt) ++ [])) as V3. rewrite app_nil_r in *. rewrite lenN_app, lenN_num in V3. big. }
  rewrite fills_groupInfoTBS by big. cbn [rbind]. destruct Cs as (l & alg & Ho & Ha & Pg). change (gi_groupContext gi) with ctx. rewrite Ec.
  destruct (sign_total (gc_cipherSuite (gr_context g)) alg _ _ ri (str "GroupInfoTBS") (enc_groupInfoTBS gi) Ha Pg) as (sig2 & Es2 & Ls2); [vm_compute; discriminate|big|].
  rewrite Es2. cbn [rbind]. 
  destruct (info_total (gc_cipherSuite (gr_context g)) ctx (gi_extensions gi) (gi_confirmationTag gi) (gi_signer gi) sig2 joiner psk Ec Kn) as (egi & Ee & Le).
  { unfold enc_groupInfo. change (enc_groupInfoTBS (mkGroupInfo ctx (gi_extensions gi) (gi_confirmationTag gi) (gi_signer gi) sig2)) with (enc_groupInfoTBS gi).
    rewrite lenN_app. cbn [gi_signature]. pose proof (vec_len_le sig2). big. }
  rewrite Ee. cbn [rbind].
  destruct (secrets_total (gc_cipherSuite (gr_context g)) (mkGroupSecrets joiner None []) egi kps Kn) with (rnds := rh) as (secrets & Esec).
  { unfold enc_groupSecrets. cbn [gs_joinerSecret gs_pathSecret gs_psks opt vecOf]. rewrite !lenN_app, lenN_num. unfold vecOf. cbn [map concat]. change (lenN (vec [])) with 1. pose proof (vec_len_le joiner). big. }
  { big. }
  { intros k1 Hin. destruct (Hk _ Hin) as (X1 & X2 & X3). splits; auto. unfold short. pose proof (in_size _ _ Hin). big. }
  rewrite Esec. cbn [rbind].
  destruct (private_total g (ownContent g b) (mkPrivateMessageContent b (mkAuthData sig tag)) rg l Sa Ho Kn Hrg) as (raw & Er).
  { split; [exact Wb|left; reflexivity]. }
  { exact Wc. }
  { unfold enc_privateMessageContent, enc_authData. cbn [pmc_body pmc_auth ad_signature ad_confirmationTag]. unfold b at 3. rewrite !lenN_app. pose proof (vec_len_le tag). big. }
  change (fc_body (ownContent g b)) with b. rewrite Er. cbn [rbind]. eauto.
Qed.
End WithCrypto.
