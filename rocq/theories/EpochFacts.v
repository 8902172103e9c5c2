(** Proofs that new groups, new epochs, messages and Welcomes are as the RFC
    prescribes (SpecEpoch.v). *)
From Verif Require Export ProtectFacts JoinFacts KeyFacts WelcomeFacts SpecEpoch.
From Verif Require CommitTreeFacts.

Section WithCrypto.
Context {C : crypto}.

(** ** Values that the RFC prescribes *)
(** ** Signatures *)
Lemma signed_bytes_rfc o bs : signedBytes o = Ok bs -> bs = enc_labelled (signed_label o) (signed_content o).
Proof.
  destruct o; cbn [signedBytes signed_label signed_content]; intros H; apply rbind_ok in H as (tbs & Ht & H); apply writes_labelled in H.
  - now rewrite (writes_leafNodeTBS _ _ _ _ Ht) in H.
  - now rewrite (writes_keyPackageTBS _ _ Ht) in H.
  - now rewrite (writes_groupInfoTBS _ _ Ht) in H.
  - now rewrite (writes_framedContentTBS _ _ _ _ Ht) in H.
Qed.
Lemma can_encode_fits w b : encodes w b -> lenN b < 2 ^ 30 -> can_encode w.
Proof. intros E H. exists b. auto. Qed.

Lemma verifications_rfc :
  (forall cs gid li l, checks_signature cs (ln_signatureKey l) (SignLeafNode l gid li) (ln_signature l) (leafNodeVerifySignature cs gid li l)) /\
  (forall k, checks_signature (kp_cipherSuite k) (ln_signatureKey (kp_leafNode k)) (SignKeyPackage k) (kp_signature k) (keyPackageVerifySignature k)) /\
  (forall gi key, checks_signature (gc_cipherSuite (gi_groupContext gi)) key (SignGroupInfo gi) (gi_signature gi) (groupInfoVerifySignature gi key)) /\
  (forall ac key ctx, checks_signature (gc_cipherSuite ctx) key (SignFramedContent (ac_wireFormat ac) (ac_content ac) ctx) (ad_signature (ac_auth ac))
     (authContentVerifySignature ac key ctx)).
Proof.
  split; [|split; [|split]]; intros; split; cbn [signed_label signed_content wf_signedObject].
  - intros H. now apply leafNodeVerifySignature_spec in H as [_ H].
  - intros [Hw _] Hl H. apply leafNodeVerifySignature_spec. split; [|exact H]. eapply can_encode_fits; [now apply fills_leafNodeTBS|exact Hl].
  - intros H. now apply keyPackageVerifySignature_spec in H as [_ H].
  - intros Hw Hl H. apply keyPackageVerifySignature_spec. split; [|exact H]. eapply can_encode_fits; [now apply fills_keyPackageTBS|exact Hl].
  - intros H. now apply (put_verify _ _ _ _ _ _ (writes_groupInfoTBS gi)) in H as [_ H].
  - intros Hw Hl H. apply (put_verify _ _ _ _ _ _ (writes_groupInfoTBS gi)); [reflexivity|]. split; [|exact H]. eapply can_encode_fits; [apply fills_groupInfoTBS|exact Hl].
  - intros H. now apply (put_verify _ _ _ _ _ _ (writes_framedContentTBS _ _ _)) in H as [_ H].
  - intros (_ & Hw & _) Hl H. apply (put_verify _ _ _ _ _ _ (writes_framedContentTBS _ _ _)); [reflexivity|]. split; [|exact H].
    eapply can_encode_fits; [now apply fills_framedContentTBS|exact Hl].
Qed.

Lemma signings_rfc :
  (forall cs gid li priv rnd l l', leafNodeSign cs gid li priv rnd l = Ok l' ->
     SignWithLabel cs priv (signed_label (SignLeafNode l gid li)) (signed_content (SignLeafNode l gid li)) rnd (ln_signature l') /\
     enc_leafNodeTBS l' gid li = enc_leafNodeTBS l gid li) /\
  (forall priv rnd k k', keyPackageSign priv rnd k = Ok k' ->
     SignWithLabel (kp_cipherSuite k) priv (signed_label (SignKeyPackage k)) (signed_content (SignKeyPackage k)) rnd (kp_signature k') /\
     enc_keyPackageTBS k' = enc_keyPackageTBS k) /\
  (forall priv rnd gi gi', groupInfoSign priv rnd gi = Ok gi' ->
     SignWithLabel (gc_cipherSuite (gi_groupContext gi)) priv (signed_label (SignGroupInfo gi)) (signed_content (SignGroupInfo gi)) rnd (gi_signature gi') /\
     enc_groupInfoTBS gi' = enc_groupInfoTBS gi) /\
  (forall cs priv rnd w c ctx ac, signAuthenticatedContent cs priv rnd w c ctx = Ok ac ->
     SignWithLabel cs priv (signed_label (SignFramedContent w c ctx)) (signed_content (SignFramedContent w c ctx)) rnd (ad_signature (ac_auth ac)) /\
     ac = mkAuthenticatedContent w c (mkAuthData (ad_signature (ac_auth ac)) [])).
Proof.
  split; [|split; [|split]]; intros; cbn [signed_label signed_content].
  - unfold leafNodeSign in H. apply rbind_ok in H as (tbs & Ht & H). apply rbind_ok in H as (sig & Hs & H). apply Ok_inj in H. subst l'.
    apply sign_only in Hs. rewrite (writes_leafNodeTBS _ _ _ _ Ht) in Hs. split; [exact Hs|reflexivity].
  - unfold keyPackageSign in H. apply rbind_ok in H as (tbs & Ht & H). apply rbind_ok in H as (sig & Hs & H). apply Ok_inj in H. subst k'.
    apply sign_only in Hs. rewrite (writes_keyPackageTBS _ _ Ht) in Hs. split; [exact Hs|reflexivity].
  - unfold groupInfoSign in H. apply rbind_ok in H as (tbs & Ht & H). apply rbind_ok in H as (sig & Hs & H). apply Ok_inj in H. subst gi'.
    apply sign_only in Hs. rewrite (writes_groupInfoTBS _ _ Ht) in Hs. split; [exact Hs|reflexivity].
  - unfold signAuthenticatedContent in H. apply rbind_ok in H as (tbs & Ht & H). apply rbind_ok in H as (sig & Hs & H). apply Ok_inj in H. subst ac.
    apply sign_only in Hs. rewrite (writes_framedContentTBS _ _ _ _ Ht) in Hs. split; [exact Hs|reflexivity].
Qed.

(** ** The key schedule *)
Lemma zeroes_zeros n : zeros n = zeroes n.
Proof. reflexivity. Qed.
Lemma confirmed_only cs w c sig i h : confirmedTranscriptHash cs w c sig i = Ok h -> h = confirmed_transcript_hash cs i w c sig.
Proof.
  unfold confirmedTranscriptHash. intros H. apply rbind_ok in H as (r & R & H). apply (gives_ok_only _ _ _ _ (gives_hashSum _ _)) in H.
  now rewrite (writes_confirmedTranscriptHashInput _ _ _ _ R) in H.
Qed.
Lemma interim_only cs c tag h : nextInterimTranscriptHash cs c tag = Ok h -> h = interim_transcript_hash cs c tag.
Proof. exact (gives_ok_only _ _ _ _ (gives_interim cs c tag)). Qed.
Lemma joiner_only ctx i c j : extractJoinerSecret ctx i c = Ok j -> j = joiner_secret ctx i c.
Proof. exact (gives_ok_only _ _ _ _ (gives_joiner ctx i c)). Qed.
Lemma epoch_only ctx j p e : extractEpochSecret ctx j p = Ok e -> e = epoch_secret ctx j p.
Proof. exact (gives_ok_only _ _ _ _ (gives_epoch ctx j p)). Qed.
Lemma derive_only cs s l r : deriveSecret cs s l = Ok r -> r = DeriveSecret cs s l.
Proof. exact (gives_ok_only _ _ _ _ (gives_deriveSecret cs s l)). Qed.
Lemma nopsk_only cs r : extractPSKSecret cs [] [] = Ok r -> r = psk_secret cs [].
Proof. exact (gives_ok_only _ _ _ _ (gives_pskSecret cs [] [] eq_refl)). Qed.
Lemma tag_only ctx e r : signConfirmationTag ctx e = Ok r -> r = confirmation_tag ctx e.
Proof. exact (gives_ok_only _ _ _ _ (gives_confirmation ctx e)). Qed.
Lemma size_only cs r : extractSize cs = Ok r -> r = secretSize cs.
Proof. exact (gives_ok_only _ _ _ _ (gives_extractSize cs)). Qed.

Lemma no_tree_hash cs h : computeRootTreeHash cs [] <> Ok h.
Proof.
  unfold computeRootTreeHash, computeTreeHash. change (root (numLeaves (@nil (option node)))) with 0. change 32%nat with (S 31).
  generalize 31%nat. intros f. cbn [treeHashLoop]. unfold getN, index. cbn. discriminate.
Qed.
Lemma shaped_hash cs t h : well_shaped t -> computeRootTreeHash cs t = Ok h -> exists k, shaped k t /\ h = tree_hash cs k t [] k [].
Proof.
  intros [->|[k Sh]] H; [now apply no_tree_hash in H|]. exists k. split; [exact Sh|]. now apply (rootTreeHash_sound k) in H as [_ ->].
Qed.

(** ** New groups *)
Lemma created_rfc gid kpp rnd g : createGroup gid kpp rnd = Ok g -> new_group gid kpp rnd g.
Proof.
  intros H. unfold createGroup in H. cbv zeta in H. rewrite first_leaf in H. cbn [rbind] in H.
  apply rbind_ok in H as (th & Hth & H). apply rbind_ok in H as (d & Hd & H). apply rbind_ok in H as (tag & Htag & H).
  apply rbind_ok in H as (interim & Hint & H). apply rbind_ok in H as (psk & Hpsk & H). apply rbind_ok in H as (ini & Hini & H).
  apply Ok_inj in H. subst g. apply (rootTreeHash_sound 0 _ _ _ (single_shaped _)) in Hth as [_ ->].
  apply describe_some in Hd. unfold new_group. cbv zeta. cbn [gr_context gr_epochSecret gr_interimTranscriptHash gr_initSecret gr_myLeafIndex gr_privTree gr_signaturePriv gr_pending gc_confirmedTranscriptHash].
  apply tag_only in Htag. apply interim_only in Hint. apply derive_only in Hini. rewrite (hashOf_some _ _ Hd). subst.
  splits; reflexivity.
Qed.

(** ** New epochs *)
Lemma path_secret_up_succ cs n s : path_secret_up cs (S n) s = path_secret_up cs n (DeriveSecret cs s (str "path")).
Proof. unfold path_secret_up. induction n as [|n IH]; [reflexivity|]. change (DeriveSecret cs (Nat.iter (S n) (fun s => DeriveSecret cs s (str "path")) s) (str "path") = DeriveSecret cs (Nat.iter n (fun s => DeriveSecret cs s (str "path")) (DeriveSecret cs s (str "path"))) (str "path")). now rewrite IH. Qed.
Lemma derivePath_secret cs t path : forall priv s priv' s', derivePath cs t priv s path = Ok (priv', s') -> s' = path_secret_up cs (length path) s.
Proof.
  induction path as [|x path IH]; intros priv s priv' s' H; cbn [derivePath] in H.
  - apply Ok_inj in H. apply pair_equal_spec in H. now destruct H as [_ <-].
  - apply rbind_ok in H as (s1 & H1 & H). apply rbind_ok in H as ([n|] & _ & H); [|discriminate]. apply rbind_ok in H as (np & _ & H).
    apply rbind_ok in H as (p1 & _ & H). apply IH in H. apply derive_only in H1. subst. cbn [length]. now rewrite path_secret_up_succ.
Qed.

Lemma findPriv_in priv l : forall i r p, findPriv priv i l = Ok (Some (r, p)) -> In (Some p) priv.
Proof.
  induction l as [|x l IH]; intros i r p H; cbn [findPriv] in H; [discriminate|].
  apply rbind_ok in H as ([q|] & E & H); [|eauto]. apply Ok_inj in H. injection H as _ <-. apply getN_ok in E. eapply nth_error_In; eauto.
Qed.

Lemma position_lt x l : forall i, position x l = Some i -> (i < length l)%nat.
Proof.
  induction l as [|y l IH]; intros i H; cbn [position] in H; [discriminate|]. destruct (y =? x); [injection H as <-; cbn; lia|].
  destruct (position x l); [|discriminate]. injection H as <-. cbn [length]. specialize (IH _ eq_refl). lia.
Qed.

Lemma decryptPathSecrets_rfc cs t ctx s r up priv c priv' : decryptPathSecrets cs t ctx s r up priv = Ok (c, priv') ->
  commit_secret cs priv ctx (Some up) c.
Proof.
  unfold decryptPathSecrets. cbv zeta. intros H. apply rbind_ok in H as (fdp & _ & H). apply rbind_guard in H as [Hlen H].
  destruct (position _ _) as [i|] eqn:Epos; [|discriminate]. apply rbind_ok in H as (upn & Hupn & H).
  destruct (if nodeIndexOf r <? nodeIndexOf s then _ else _) as [cp|]; [|discriminate].
  apply rbind_ok in H as (rs & _ & H). apply rbind_guard in H as [_ H]. apply rbind_ok in H as ([[ri np]|] & Hf & H); [|discriminate].
  apply rbind_ok in H as (ct & Hct & H). apply rbind_ok in H as (ps & Hps & H). apply rbind_ok in H as ([n|] & _ & H); [|discriminate].
  apply rbind_ok in H as (np' & _ & H). apply rbind_ok in H as (p1 & _ & H). apply rbind_ok in H as ([p2 s2] & Hd & H).
  apply rbind_ok in H as (cs' & Hcs & H). apply Ok_inj in H. apply pair_equal_spec in H as [<- _].
  apply index_ok in Hupn, Hct. apply N.eqb_eq in Hlen. apply derivePath_secret in Hd. apply derive_only in Hcs. subst s2 cs'.
  destruct (nth_error_split _ _ Hupn) as (before & after & Eup & Eb).
  unfold decryptPathSecret in Hps. apply rbind_ok in Hps as (rawCtx & Hctx & Hps). apply decrypt_only in Hps. rewrite (writes_groupContext _ _ Hctx) in Hps.
  exists before, upn, after, ct, np, ps. splits; auto.
  - eapply findPriv_in; eauto.
  - eapply nth_error_In; eauto.
  - apply position_lt in Epos. unfold lenN in Hlen. rewrite Eup, app_length in Hlen. cbn [length] in Hlen.
    change (DeriveSecret cs (path_secret_up cs (length (skipn (S i) fdp)) ps) (str "path") = DeriveSecret cs (path_secret_up cs (length after) ps) (str "path")).
    replace (length (skipn (S i) fdp)) with (length after) by (rewrite skipn_length; lia). reflexivity.
Qed.

Lemma carryPriv_in tl nl priv p x : carryPriv tl nl priv = Ok p -> In (Some x) p -> In (Some x) priv.
Proof.
  unfold carryPriv. destruct (_ <? _)%nat; [discriminate|]. intros H Hin. apply Ok_inj in H. subst p. apply in_app_iff in Hin as [Hin|Hin].
  - rewrite <- (firstn_skipn (Nat.min tl nl) priv). apply in_app_iff. auto.
  - apply repeat_spec in Hin. discriminate.
Qed.

Lemma processPath_rfc g li up h t priv now h1 t1 th c priv1 : processPath g li up h t priv now = Ok (h1, t1, th, c, priv1) ->
  computeRootTreeHash (gc_cipherSuite (gr_context g)) (deref h1 t1) = Ok th /\
  commit_secret (gc_cipherSuite (gr_context g)) priv (nextContext (gr_context g) th (gc_confirmedTranscriptHash (gr_context g))) (Some up) c.
Proof.
  unfold processPath. cbv zeta. intros H. apply rbind_ok in H as ([] & _ & H). apply rbind_ok in H as (sn & _ & H).
  apply rbind_ok in H as ([sk ek] & _ & H). destruct sn as [sn|]; [|discriminate].
  apply rbind_ok in H as (creds & _ & H). apply rbind_ok in H as ([] & _ & H). apply rbind_ok in H as ([] & _ & H).
  apply rbind_ok in H as ([h2 t2] & _ & H). apply rbind_ok in H as (th' & Hth & H). apply rbind_ok in H as ([c' p'] & Ed & H).
  apply Ok_inj in H. inversion H; subst. split; [assumption|]. now apply decryptPathSecrets_rfc in Ed.
Qed.

Theorem commit_rfc g raw now ac c g' : sane g -> accepts_commit g raw now ac c g' -> new_epoch g ac c g'.
Proof.
  intros Sa H. pose proof H as (_ & Hb & Hu). pose proof (message_sane _ _ _ _ _ Sa Hu) as Sa'. apply accepts_commit_inv in H as [_ H].
  apply processCommit_ok in H as (c' & ps & ss & h & t & Hb' & _ & _ & H). assert (c' = c) by congruence. subst c'.
  apply finishCommit_ok in H as (priv & nh & h1 & t1 & th & cs & priv1 & ctx & interim & psk & ep & ini & Hcp & Hnh & Hpath & Hn & ->).
  apply nextEpoch_ok in Hn as (confirmed & joiner & H1 & H2 & H3 & H4 & H5 & H6 & H7).
  assert (Hth : computeRootTreeHash (gc_cipherSuite (gr_context g)) (deref h1 t1) = Ok th /\
    commit_secret (gc_cipherSuite (gr_context g)) (gr_privTree g) (nextContext (gr_context g) th (gc_confirmedTranscriptHash (gr_context g))) (c_path c) cs).
  { destruct (c_path c) as [up|].
    - apply processPath_rfc in Hpath as [Hth (b & u & a & ct & p & s & E1 & E2 & E3)]. split; [exact Hth|].
      exists b, u, a, ct, p, s. split; [exact E1|]. split; [eapply carryPriv_in; eauto|exact E3].
    - destruct Hpath as (-> & -> & Hth & -> & _). split; [exact Hth|]. apply size_only in Hnh. subst nh. reflexivity. }
  destruct Hth as [Hth Hcs]. destruct (shaped_hash _ _ _ (sane_shape _ Sa') Hth) as (k & Sh & ->).
  unfold new_epoch. cbv zeta. exists k, cs. cbn [gr_context gr_interimTranscriptHash gr_epochSecret gr_initSecret].
  apply confirmed_only in H1. apply interim_only in H3. apply joiner_only in H4. apply nopsk_only in H5. apply epoch_only in H6. apply derive_only in H7.
  subst. splits; auto; try reflexivity.
Qed.

(** ** Messages *)
Lemma member_message_rfc g k b a content pc guard raw : shaped k (gr_value g) -> content = member_content g b -> pc = mkPrivateMessageContent b a ->
  groupEncryptPrivateMessage g content pc guard = Ok raw -> raw = member_message g k b a guard.
Proof.
  intros [[Hk Hl] _] -> -> H. unfold gr_value, deref in Hl. rewrite lenN_map in Hl.
  pose proof H as H'. unfold groupEncryptPrivateMessage in H'. apply rbind_ok in H' as (s & Hs & _).
  destruct (designated_path k (gr_myLeafIndex g) Hk (messageSecret_in _ _ _ _ _ _ Hk Hl Hs)) as (_ & Hp & Hn).
  eapply group_encrypts_rfc in H; eauto.
Qed.

Lemma no_messageSecret g li ct n s : gr_tree g = [] -> messageSecret g li ct n <> Ok s.
Proof.
  intros E Hs. unfold messageSecret in Hs. rewrite E in Hs.
  apply rbind_ok in Hs as (enc & _ & Hs). apply rbind_ok in Hs as (st & Hst & _). unfold deriveSecretTree in Hst.
  change (repeat None (N.to_nat (width (numLeaves (@nil (option nat)))))) with (@nil (option bytes)) in Hst.
  change (root (numLeaves (@nil (option nat)))) with 0 in Hst. apply rbind_ok in Hst as (t & Ht & _). discriminate Ht.
Qed.
Lemma sender_shaped g content pc guard raw : well_shaped (gr_value g) -> groupEncryptPrivateMessage g content pc guard = Ok raw ->
  exists k, shaped k (gr_value g).
Proof.
  intros [E|E] H; [|exact E]. exfalso. unfold gr_value, deref in E. apply map_eq_nil in E.
  unfold groupEncryptPrivateMessage in H. apply rbind_ok in H as (s & Hs & _). now apply no_messageSecret in Hs.
Qed.

Theorem application_rfc g data rnd guard raw : sane g -> createApplicationMessage g data rnd guard = Ok raw ->
  exists k sig, shaped k (gr_value g) /\ SignWithLabel (gc_cipherSuite (gr_context g)) (gr_signaturePriv g) (str "FramedContentTBS")
      (enc_framedContentTBS 2 (member_content g (BApplication data)) (gr_context g)) rnd sig /\
    raw = member_message g k (BApplication data) (mkAuthData sig []) guard.
Proof.
  intros Sa H. unfold createApplicationMessage in H. apply rbind_ok in H as (pc & Hpc & H). destruct (sender_shaped _ _ _ _ _ (sane_shape _ Sa) H) as (k & Sh).
  unfold signPrivateMessageContent in Hpc. apply rbind_ok in Hpc as (ac & Hac & Hpc). apply Ok_inj in Hpc. subst pc.
  unfold signAuthenticatedContent in Hac. apply rbind_ok in Hac as (tbs & Htbs & Hac). apply rbind_ok in Hac as (sig & Hsig & Hac).
  apply Ok_inj in Hac. subst ac. exists k, sig. apply sign_only in Hsig. rewrite (writes_framedContentTBS _ _ _ _ Htbs) in Hsig.
  split; [exact Sh|]. split; [exact Hsig|]. eapply member_message_rfc in H; eauto.
Qed.

Theorem received_rfc g raw m ac : sane g -> unmarshal getMlsMessage raw = Ok (MPrivate m) -> carries g raw ac ->
  good_body (fc_body (ac_content ac)) ->
  raw = enc_mlsMessage (MPrivate m) /\ ac_wireFormat ac = 2 /\
  exists k sd padding, shaped k (gr_value g) /\ designated (sd_leafIndex sd) < leaf_count k /\
    protects (gr_context g) (gr_epochSecret g) (leafPath k (designated (sd_leafIndex sd))) sd (ac_content ac) (ac_auth ac) padding m.
Proof.
  intros Sa Hraw Hc Hg. assert (Ek : exists k, shaped k (gr_value g)).
  { destruct (sane_shape _ Sa) as [E|E]; [|exact E]. exfalso. destruct Hc as [m' Hm'|m' sds sd secret pc Hm' H1 H2 Hs H4]; [congruence|].
    apply no_messageSecret in Hs; auto. unfold gr_value, deref in E. now apply map_eq_nil in E. }
  destruct Ek as (k & Sh). pose proof Sh as [[Hk Hl] _]. unfold gr_value, deref in Hl. rewrite lenN_map in Hl.
  destruct (carries_rfc _ _ _ _ _ Hk Hl Hraw Hc Hg) as (E1 & E2 & sd & padding & Hd & Hp). split; [exact E1|]. split; [exact E2|]. now exists k, sd, padding.
Qed.

Theorem membership_tag_rfc g m raw li : fc_sender (pubm_content m) = SMember li -> signPublicMessageMembershipTag g m = Ok raw ->
  raw = enc_mlsMessage (MPublic (mkPublicMessage (pubm_content m) (pubm_auth m)
    (membership_tag (gr_context g) (gr_epochSecret g) (pubm_content m) (pubm_auth m)))).
Proof.
  intros Hs H. unfold signPublicMessageMembershipTag in H. apply rbind_ok in H as (key & Hk & H). apply rbind_ok in H as (m' & Hm & H).
  apply derive_only in Hk. subst key. unfold signMembershipTag in Hm. rewrite Hs in Hm. cbn [sender_isMember negb] in Hm.
  apply rbind_ok in Hm as (tbm & Ht & Hm). apply rbind_ok in Hm as (tag & Hg & Hm). apply Ok_inj in Hm. subst m'.
  apply (gives_ok_only _ _ _ _ (gives_signMAC _ _ _)) in Hg. rewrite (writes_authenticatedContentTBM _ _ _ _ _ Ht) in Hg. subst tag.
  exact (writes_mlsMessage _ _ H).
Qed.

(** ** Welcomes *)
Lemma secrets_rfc cs joiner egi kps : forall rnds l, encryptSecretsFor cs (mkGroupSecrets joiner None []) egi kps rnds = Ok l ->
  Forall2 (group_secrets_for cs joiner egi) kps l.
Proof.
  induction kps as [|kp kps IH]; intros rnds l H; cbn [encryptSecretsFor] in H.
  - apply Ok_inj in H. subst. constructor.
  - apply rbind_ok in H as (ref & Hr & H). apply rbind_ok in H as (ct & Hc & H). apply rbind_ok in H as (rest & Hrest & H). apply Ok_inj in H. subst l.
    constructor; [|eapply IH; eauto]. apply keyPackageRef_only in Hr. subst ref. split; [reflexivity|].
    unfold groupSecretsEncrypt in Hc. apply rbind_ok in Hc as (raw & Hraw & Hc). apply rbind_ok in Hc as ([ko c] & He & Hc). apply Ok_inj in Hc. subst ct.
    apply encrypt_only in He. rewrite (writes_groupSecrets _ _ Hraw) in He. exists (hd [] rnds). exact He.
Qed.

Lemma info_rfc gi joiner psk egi : groupInfoEncrypt gi joiner psk = Ok egi -> egi = encrypted_group_info (gc_cipherSuite (gi_groupContext gi)) joiner psk gi.
Proof.
  unfold groupInfoEncrypt, welcomeKeyNonce. intros H. apply rbind_ok in H as ([key nonce] & Hk & H). apply rbind_ok in H as (raw & Hraw & H).
  apply aeadSeal_sealed in H. rewrite (writes_groupInfo _ _ Hraw) in H.
  apply rbind_ok in Hk as (s & Hs & Hk). apply (gives_ok_only _ _ _ _ (gives_welcome _ _ _)) in Hs. subst s.
  apply rbind_ok in Hk as (nn & Hnn & Hk). apply (gives_ok_only _ _ _ _ (gives_nonceSize _)) in Hnn. subst nn.
  apply rbind_ok in Hk as (n & Hn & Hk). apply (gives_ok_only _ _ _ _ (gives_expand _ _ _ _ _)) in Hn. subst n.
  apply rbind_ok in Hk as (nk & Hnk & Hk). apply (gives_ok_only _ _ _ _ (gives_keySize _)) in Hnk. subst nk.
  apply rbind_ok in Hk as (k & Hkk & Hk). apply (gives_ok_only _ _ _ _ (gives_expand _ _ _ _ _)) in Hkk. subst k.
  apply Ok_inj, pair_equal_spec in Hk as [<- <-]. exact H.
Qed.

Lemma info_sign_rfc priv rnd gi gi' : groupInfoSign priv rnd gi = Ok gi' -> exists sig,
  SignWithLabel (gc_cipherSuite (gi_groupContext gi)) priv (str "GroupInfoTBS") (enc_groupInfoTBS gi) rnd sig /\
  gi' = mkGroupInfo (gi_groupContext gi) (gi_extensions gi) (gi_confirmationTag gi) (gi_signer gi) sig.
Proof.
  unfold groupInfoSign. intros H. apply rbind_ok in H as (tbs & Ht & H). apply rbind_ok in H as (sig & Hs & H). apply Ok_inj in H. subst gi'.
  exists sig. apply sign_only in Hs. rewrite (writes_groupInfoTBS _ _ Ht) in Hs. split; [exact Hs|reflexivity].
Qed.

Lemma flat_adds kps : flat_map (fun p => match p with PAdd k => [kp_leafNode k] | _ => [] end) (map PAdd kps) = map kp_leafNode kps.
Proof. induction kps as [|k kps IH]; cbn; congruence. Qed.

Theorem welcome_rfc g kps rs ri rh rg g1 w raw : crypto_ok C -> sane g -> createWelcome g kps rs ri rh rg = (g1, Ok (w, raw)) ->
  adds_with_welcome g kps rs ri rg w raw.
Proof.
  intros HC Sa H. destruct (createWelcome_parts _ _ _ _ _ _ _ _ _ HC (proj1 (sane_consistent _ Sa)) H) as (Hne & _ & e & sig & tag & joiner & X).
  destruct X as [Ht (tbs & Htbs & Hsig) (th & confirmed & Hth & Hconf & Hctx & _) (nh & Hnh & Hj) Hpsk Hep Htag _ Hraw (rt & gi & egi & secrets & Hrt & Hgi & Hegi & Hsec & Hw)].
  pose proof (sane_shape _ Sa) as Ws. pose proof (vapply_shape _ _ _ _ Ws Ht) as Ws'.
  destruct (shaped_hash _ _ _ Ws' Hth) as (k' & Sh' & Eth).
  set (ps := map (fun k => (PAdd k, gr_myLeafIndex g)) kps).
  assert (P : map fst ps = map PAdd kps) by (unfold ps; now rewrite map_map).
  assert (AP : SpecCommitTree.after_proposals (gr_value g) ps (ed_tree e)). { apply CommitTreeFacts.vapply_one_by_one; [exact Ws|]. rewrite P, adds_only, <- (adds_only _ _ [gr_myLeafIndex g]). exact Ht. }
  rewrite adds_only in Ht. pose proof (adds_members _ _ _ Ws Ht) as Hf. rewrite flat_adds in Hf.
  apply sign_only in Hsig. rewrite (writes_framedContentTBS _ _ _ _ Htbs) in Hsig.
  apply confirmed_only in Hconf. apply size_only in Hnh. subst nh. apply joiner_only in Hj. apply nopsk_only in Hpsk. apply epoch_only in Hep. apply tag_only in Htag.
  apply info_sign_rfc in Hgi as (infoSig & Hi & ->). apply info_rfc in Hegi. apply secrets_rfc in Hsec.
  rewrite (writes_ratchetTree _ _ Hrt) in *. cbn [gi_groupContext gi_extensions gi_confirmationTag gi_signer] in *.
  destruct (sender_shaped _ _ _ _ _ Ws Hraw) as (k & Sh).
  eapply member_message_rfc in Hraw; [|exact Sh|reflexivity|reflexivity].
  unfold adds_with_welcome. cbv zeta. exists k, k', (ed_tree e), sig, infoSig.
  subst w. cbn [w_cipherSuite w_encryptedGroupInfo w_secrets]. subst th confirmed. change (nextContext ?a ?b ?c) with (next_context a b c) in *.
  rewrite Hctx, Hpsk in *. rewrite Hep in Htag. rewrite Hj in *. rewrite Htag in *. splits; auto.
Qed.
End WithCrypto.
