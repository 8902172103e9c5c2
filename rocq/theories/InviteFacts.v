(** A new member can join with a valid Welcome: C75. *)
From Verif Require Export AcceptFacts JoinPathFacts JoinFacts WelcomeFacts SpecInvite.

Lemma findLeaf_there k t li l e : shaped k t -> distinct_encryption_keys k t -> leaf_at t li = Some l -> putLeafNode l = Ok e -> findLeaf t l = Ok (Some li).
Proof.
  intros Sh Nd Hl He. assert (Hli : li < leaf_count k) by (apply (member_in_array k t); [assumption|congruence]).
  assert (Path : forall x n, x < leaf_count k -> leaf_at t x = Some n -> at_path k t (leafPath k x) = Some (NLeaf n)).
  { intros x n Hx H. unfold leaf_at in H. unfold at_path. rewrite leafPath_number by assumption.
    destruct (nth_error t (N.to_nat (2 * x))) as [[[l'|]|]|]; congruence. }
  unfold findLeaf. rewrite (numLeaves_tree t k) by apply Sh.
  assert (G : forall lis, (forall x, In x lis -> x < leaf_count k) -> In li lis -> findLeafFrom t l lis = Ok (Some li)).
  { induction lis as [|x lis IH]; intros Hx Hin; [destruct Hin|]. cbn [findLeafFrom]. rewrite (getLeaf_at k) by (auto; apply Hx; now left). cbn [rbind].
    destruct (N.eq_dec x li) as [->|Hne].
    - rewrite Hl, bytes_eqb_refl. cbn [negb]. rewrite He, bytes_eqb_refl. reflexivity.
    - destruct Hin as [|Hin]; [contradiction|].
      assert (R : findLeafFrom t l lis = Ok (Some li)) by (apply IH; auto; intros; apply Hx; now right).
      destruct (leaf_at t x) as [n|] eqn:En; [|exact R].
      destruct (bytes_eqb (ln_encryptionKey n) (ln_encryptionKey l)) eqn:Eb; cbn [negb]; [|exact R].
      apply bytes_eqb_true in Eb. exfalso. apply Hne.
      assert (Hxk : x < leaf_count k) by (apply Hx; now left).
      assert (P : leafPath k x = leafPath k li).
      { eapply Nd; [apply leafPath_in|apply leafPath_in|eauto|eauto|exact Eb]. }
      apply (f_equal (number k)) in P. rewrite !leafPath_number in P by assumption. lia. }
  apply G; unfold upto.
  - intros x Hx. apply in_map_iff in Hx. destruct Hx as (i & <- & Hi). apply in_seq in Hi. lia.
  - apply in_map_iff. exists (N.to_nat li). split; [lia|]. apply in_seq. lia.
Qed.

Lemma findSecret_one w sec : In sec (w_secrets w) -> NoDup (map egs_newMember (w_secrets w)) -> findSecret w (egs_newMember sec) = Some sec.
Proof.
  unfold findSecret. induction (w_secrets w) as [|x l IH]; intros Hin Nd; [destruct Hin|]. cbn [find]. cbn [map] in Nd. inversion Nd as [|? ? Hx Nd']; subst.
  destruct Hin as [->|Hin]; [now rewrite bytes_eqb_refl|]. destruct (bytes_eqb (egs_newMember x) (egs_newMember sec)) eqn:E; [|auto].
  apply bytes_eqb_true in E. exfalso. apply Hx. rewrite E. now apply in_map.
Qed.
Lemma findExtension_held gi t : brings_tree gi (chop t) -> findExtensionData (gi_extensions gi) 2 = Some (enc_ratchetTree t).
Proof.
  intros (before & after & -> & H). induction before as [|e before IH]; [reflexivity|]. cbn [app findExtensionData].
  destruct (N.eqb_spec (ext_type e) 2) as [He|He]; [|apply IH; intros x Hx; apply H; now right]. exfalso. exact (H e (or_introl eq_refl) He).
Qed.

Section WithCrypto.
Context {C : crypto}.

Lemma info_parts gi t : short (enc_groupInfo gi) -> brings_tree gi (chop t) ->
  lenN (enc_groupInfoTBS gi) < 2 ^ 30 /\ short (enc_groupContext (gi_groupContext gi)) /\ short (gi_confirmationTag gi) /\ lenN (enc_ratchetTree t) < 2 ^ 30.
Proof.
  unfold short, enc_groupInfo, enc_groupInfoTBS. rewrite !lenN_app. intros H (before & after & E & _).
  pose proof (vec_len (gi_confirmationTag gi)). 
  assert (lenN (enc_ratchetTree t) <= lenN (enc_extensions (gi_extensions gi))).
  { rewrite E. assert (X : lenN (enc_ratchetTree t) <= lenN (enc_extension (mkExtension 2 (vecOf (opt enc_node) (chop t))))).
    { unfold enc_extension. cbn [ext_data ext_type]. rewrite lenN_app. pose proof (vec_len (vecOf (opt enc_node) (chop t))). unfold enc_ratchetTree. lia. }
    unfold enc_extensions. remember (mkExtension 2 (vecOf (opt enc_node) (chop t))) as e eqn:Ee. clear Ee. unfold vecOf at 1. etransitivity; [|apply vec_len].
    rewrite map_app, concat_app, lenN_app. cbn [map concat]. rewrite lenN_app. lia. }
  splits; lia.
Qed.

Lemma invited_secrets w kpp s gi k t me now : crypto_ok C -> invites w kpp s gi k t me now ->
  keyPackageRef (kpp_public kpp) = Ok (KeyPackageRef (kpp_public kpp)) /\
  decryptGroupSecrets w (KeyPackageRef (kpp_public kpp)) (kpp_initKey kpp) = Ok s.
Proof.
  intros OK I. destruct (iv_wf _ _ _ _ _ _ _ _ I) as (W1 & W2 & W3). destruct (iv_size _ _ _ _ _ _ _ _ I) as (Z1 & Z2 & Z3 & Z4).
  destruct (iv_suite _ _ _ _ _ _ _ _ I) as [Ec Ek]. destruct (iv_keys _ _ _ _ _ _ _ _ I) as (d & Hd & Hi & He & Hs).
  split. { apply (gives_keyPackageRef _ W1). split; [|exact Z1]. exists d. now rewrite suite_eq. }
  destruct (iv_secrets _ _ _ _ _ _ _ _ I) as (sec & rnd & Hin & Hr & d' & Hd' & Hseal). rewrite <- Hr. unfold decryptGroupSecrets.
  rewrite (findSecret_one w sec Hin (iv_one _ _ _ _ _ _ _ _ I)).
  rewrite suite_eq, <- Ek, Hd in Hd'. injection Hd' as <-.
  assert (D : decryptWithLabel (w_cipherSuite w) (kpp_initKey kpp) (str "Welcome") (w_encryptedGroupInfo w) (hc_kemOutput (egs_secrets sec)) (hc_ciphertext (egs_secrets sec)) = Ok (enc_groupSecrets s)).
  { apply decrypt_iff; [apply labelled_short; [unfold short; vm_compute; reflexivity|exact Z4]|]. exists d. split; [now rewrite suite_eq, <- Ek|]. destruct (Hi (sd_kdf d) (sd_aead d) (enc_labelled (str "Welcome") (w_encryptedGroupInfo w)) rnd (enc_groupSecrets s)) as (ko & ct & E1 & E2). rewrite Hseal in E1. injection E1 as -> ->. exact E2. }
  rewrite D. cbn [rbind]. apply unmarshal_ok. rewrite <- (app_nil_r (enc_groupSecrets s)). apply groupSecrets_RT.
  - unfold wf_groupSecrets. rewrite (iv_psks _ _ _ _ _ _ _ _ I). constructor.
  - apply fills_groupSecrets. now apply short_fits.
Qed.

Lemma info_decrypts w j gi : crypto_ok C -> known_suite (w_cipherSuite w) -> wf_groupInfo gi -> short (enc_groupInfo gi) ->
  w_encryptedGroupInfo w = encrypted_group_info (w_cipherSuite w) j (psk_secret (w_cipherSuite w) []) gi ->
  decryptGroupInfo w j (psk_secret (w_cipherSuite w) []) = Ok gi.
Proof.
  intros OK Kn Hw Hs E. set (cs := w_cipherSuite w) in *. set (psk := psk_secret cs []) in *. unfold decryptGroupInfo, welcomeKeyNonce. fold cs.
  rewrite (proj2 (gives_welcome cs j psk) Kn). cbn [rbind]. rewrite (proj2 (gives_nonceSize cs) Kn). cbn [rbind].
  rewrite (proj2 (gives_expand_short cs (welcome_secret cs j psk) (str "nonce") [] (nonceSize cs))) by (splits; solve [exact Kn | apply nonceSize_ok | apply keySize_ok | unfold short; vm_compute; reflexivity]). cbn [rbind].
  rewrite (proj2 (gives_keySize cs) Kn). cbn [rbind].
  rewrite (proj2 (gives_expand_short cs (welcome_secret cs j psk) (str "key") [] (keySize cs))) by (splits; solve [exact Kn | apply nonceSize_ok | apply keySize_ok | unfold short; vm_compute; reflexivity]). cbn [rbind].
  rewrite (opens_sealed cs _ _ [] _ (enc_groupInfo gi)).
  - cbn [rbind]. apply unmarshal_ok. rewrite <- (app_nil_r (enc_groupInfo gi)). apply groupInfo_RT; [exact Hw|]. apply fills_groupInfo. now apply short_fits.
  - exact Kn.
  - unfold ExpandWithLabel. apply (ok_expand C OK).
  - unfold ExpandWithLabel. apply (ok_expand C OK).
  - rewrite E. unfold opened, encrypted_group_info, sealed. apply (ok_aead C OK); unfold welcome_key, welcome_nonce, ExpandWithLabel; apply (ok_expand C OK).
Qed.

Theorem invited_joins w kpp s gi k t me now : crypto_ok C -> later_than_1970 now -> invites w kpp s gi k t me now ->
  exists g, groupFromWelcome w kpp now = Ok g /\ gr_value g = t /\ gr_context g = gi_groupContext gi /\ gr_myLeafIndex g = me /\
    gr_epochSecret g = epoch_secret (gi_groupContext gi) (gs_joinerSecret s) (psk_secret (w_cipherSuite w) []).
Proof.
  intros OK Hnow I. destruct (iv_wf _ _ _ _ _ _ _ _ I) as (W1 & W2 & W3). destruct (iv_size _ _ _ _ _ _ _ _ I) as (Z1 & Z2 & Z3 & Z4).
  destruct (iv_suite _ _ _ _ _ _ _ _ I) as [Ec Ek].
  assert (Kn : known_suite (w_cipherSuite w)).
  { destruct (iv_keys _ _ _ _ _ _ _ _ I) as (d & Hd & _). exists d. now rewrite suite_eq, <- Ek. }
  destruct (invited_secrets _ _ _ _ _ _ _ _ OK I) as [R1 R2].
  destruct (info_parts gi t Z3 (iv_tree _ _ _ _ _ _ _ _ I)) as (S1 & S2 & S3 & S4).
  pose proof (iv_shaped _ _ _ _ _ _ _ _ I) as Sh. pose proof (iv_leaf _ _ _ _ _ _ _ _ I) as Hme.
  pose proof (findLeaf_lt _ _ _ _ Sh Hme) as Hmelt.
  assert (Hput : putRatchetTree t = Ok (enc_ratchetTree t)) by (apply fills_ratchetTree; assumption).
  assert (Htree : unmarshal getRatchetTree (enc_ratchetTree t) = Ok t).
  { apply unmarshal_ok. rewrite <- (app_nil_r (enc_ratchetTree t)). apply ratchetTree_rt; assumption. }
  pose proof (putRatchetTree_encodable _ _ Hput) as Henc. destruct (encodable_leaf _ _ _ Henc Hme) as (le & Hle).
  destruct (iv_signed _ _ _ _ _ _ _ _ I) as (signer & Hsg & Hsigned).
  assert (Hsigner : getLeaf t (gi_signer gi) = Ok (Some signer)).
  { apply getLeaf_some. rewrite nodeIndexOf_designated. unfold leaf_at in Hsg. destruct (nth_error t _) as [[[l'|]|]|]; congruence. }
  assert (Hver : groupInfoVerifySignature gi (ln_signatureKey signer) = Ok true).
  { unfold groupInfoVerifySignature. apply (put_verify _ _ _ _ _ _ (writes_groupInfoTBS gi)); [unfold short; vm_compute; reflexivity|].
    split; [|exact Hsigned]. eapply can_encode_fits; [apply fills_groupInfoTBS|exact S1]. }
  set (ctx := gi_groupContext gi) in *. set (cs := w_cipherSuite w) in *. set (psk := psk_secret cs []) in *.
  set (epoch := epoch_secret ctx (gs_joinerSecret s) psk) in *.
  assert (Kc : known_suite (gc_cipherSuite ctx)) by (now rewrite Ec).
  assert (Hep : extractEpochSecret ctx (gs_joinerSecret s) psk = Ok epoch) by (apply gives_epoch; split; assumption).
  assert (Htag : groupInfoVerifyConfirmationTag gi (gs_joinerSecret s) psk = Ok true).
  { unfold groupInfoVerifyConfirmationTag. cbv zeta. apply (proj2 (falseOnErr_true _)). fold ctx. rewrite Hep. cbn [rbind].
    rewrite (proj2 (gives_deriveSecret (gc_cipherSuite ctx) epoch secretLabelConfirm)) by (split; [exact Kc|unfold short; vm_compute; reflexivity]). cbn [rbind].
    unfold verifyMAC. rewrite (proj2 (gives_signMAC (gc_cipherSuite ctx) (DeriveSecret (gc_cipherSuite ctx) epoch secretLabelConfirm) (gc_confirmedTranscriptHash ctx)) Kc). cbn [rbind].
    rewrite (iv_tag _ _ _ _ _ _ _ _ I). fold ctx cs psk epoch. unfold confirmation_tag. now rewrite bytes_eqb_refl. }
  assert (Hvi : verifyIntegrity t ctx now = Ok tt).
  { apply (verifyIntegrity_complete k); auto; [apply wf_nodes_lifetimes; apply W3|apply (iv_once _ _ _ _ _ _ _ _ I)|apply (iv_valid _ _ _ _ _ _ _ _ I)]. }
  assert (Hinit : deriveSecret (gc_cipherSuite ctx) epoch secretLabelInit = Ok (DeriveSecret (gc_cipherSuite ctx) epoch secretLabelInit))
    by (apply gives_deriveSecret; split; [exact Kc|unfold short; vm_compute; reflexivity]).
  assert (Hint : nextInterimTranscriptHash (gc_cipherSuite ctx) (gc_confirmedTranscriptHash ctx) (gi_confirmationTag gi) =
    Ok (interim_transcript_hash (gc_cipherSuite ctx) (gc_confirmedTranscriptHash ctx) (gi_confirmationTag gi))) by (apply gives_interim; split; assumption).
  assert (Hfind : findLeaf t (kp_leafNode (kpp_public kpp)) = Ok (Some me)).
  { eapply findLeaf_there; eauto. destruct (iv_valid _ _ _ _ _ _ _ _ I) as [(_ & _ & _ & _ & _ & Hk & _) _]. exact Hk. }
  assert (Hni : nodeIndexOf me = 2 * me) by (apply (nodeIndexOf_leaf k); auto; apply Sh).
  assert (Hlt : 2 * me < lenN t).
  { unfold leaf_at in Hme. destruct (nth_error t (N.to_nat (2 * me))) eqn:En; [|discriminate]. assert (N.to_nat (2 * me) < length t)%nat by (apply nth_error_Some; congruence). unfold lenN. lia. }
  pose (priv := upd (repeat None (length t)) (N.to_nat (2 * me)) (Some (kpp_encryptionKey kpp))).
  assert (Hset : setN (repeat None (length t)) (nodeIndexOf me) (Some (kpp_encryptionKey kpp)) = Ok priv).
  { rewrite Hni. apply setN_in. unfold lenN in *. now rewrite repeat_length. }
  assert (Fp : full k priv).
  { destruct Sh as [[F1 F2] _]. split; [exact F1|]. unfold priv, lenN in *. now rewrite upd_length, repeat_length. }
  assert (Hpriv : exists priv', match gs_pathSecret s with None => Ok priv | Some p => processPathSecret (gc_cipherSuite ctx) t priv p (commonAncestor (nodeIndexOf me) (nodeIndexOf (gi_signer gi))) end = Ok priv').
  { destruct (gs_pathSecret s) as [p|] eqn:Eps; [|eauto]. destruct (iv_path _ _ _ _ _ _ _ _ I p Eps) as (Hsl & a & b & s1 & s2 & E1 & E2 & Hlen & HK).
    rewrite Hni, (nodeIndexOf_leaf k) by (auto; apply Sh). rewrite <- (leafPath_number k _ Hmelt), <- (leafPath_number k _ Hsl), E1, E2.
    rewrite commonAncestor_part; [|apply Sh|rewrite <- E1; apply leafPath_in|rewrite <- E2; apply leafPath_in].
    assert (Ha : in_tree k a) by (pose proof (leafPath_in k me) as X; rewrite E1 in X; unfold in_tree in *; rewrite app_length in X; lia).
    rewrite Ec. fold cs in HK. destruct (processPathSecret_complete cs k t priv p a Sh Fp Ha Hlen HK) as (priv' & -> & _). eauto. }
  destruct Hpriv as (priv' & Hpriv).
  assert (Hpsk : extractPSKSecret cs [] [] = Ok psk) by (apply (gives_pskSecret cs [] [] eq_refl); split; [exact Kn|constructor]).
  assert (Hgi : decryptGroupInfo w (gs_joinerSecret s) psk = Ok gi) by exact (info_decrypts w (gs_joinerSecret s) gi OK Kn W2 Z3 (iv_info _ _ _ _ _ _ _ _ I)).
  destruct (load t) as [h pt] eqn:El. destruct (load_value t h pt El) as (V & P & L).
  eexists. split.
  - unfold groupFromWelcome. rewrite R1. cbn [rbind]. rewrite R2. cbn [rbind]. unfold verifySingleReinitOrBranchPSK. rewrite (iv_psks _ _ _ _ _ _ _ _ I). cbn [existsb guard rbind].
    change (lenN [] =? 0) with true. cbn [guard rbind].
    unfold groupFromSecrets. rewrite (iv_psks _ _ _ _ _ _ _ _ I). fold cs. rewrite Hpsk. cbn [rbind].
    rewrite Hgi. cbn [rbind]. cbv zeta.
    rewrite (findExtension_held _ _ (iv_tree _ _ _ _ _ _ _ _ I)), Htree. cbn [rbind]. rewrite Hsigner. cbn [rbind]. rewrite Hver. cbn [guard rbind].
    rewrite Htag. cbn [guard rbind]. fold ctx. replace (gc_cipherSuite ctx =? cs) with true by (symmetry; now apply N.eqb_eq). cbn [guard rbind]. rewrite Hvi. cbn [rbind].
    rewrite Hep. cbn [rbind]. rewrite Hinit. cbn [rbind]. rewrite Hint. cbn [rbind]. rewrite Hfind. cbn [rbind]. rewrite Hset. cbn [rbind]. rewrite Hpriv. cbn [rbind]. rewrite El. reflexivity.
  - unfold gr_value. cbn [gr_heap gr_tree gr_context gr_myLeafIndex gr_epochSecret]. splits; auto.
Qed.

Theorem invited_joins_raw w raw kpp s gi k t me now : crypto_ok C -> later_than_1970 now -> invites w kpp s gi k t me now ->
  raw = enc_mlsMessage (MWelcome w) -> u16 (w_cipherSuite w) -> lenN raw < 2 ^ 30 ->
  unmarshalWelcome raw = Ok w /\
  exists g, groupFromWelcome w kpp now = Ok g /\ gr_value g = t /\ gr_context g = gi_groupContext gi /\ gr_myLeafIndex g = me /\
    gr_epochSecret g = epoch_secret (gi_groupContext gi) (gs_joinerSecret s) (psk_secret (w_cipherSuite w) []).
Proof.
  intros OK Hn I E Hw Hl. split; [|now apply (invited_joins w kpp s gi k t me now)]. apply unmarshalWelcome_ok. rewrite <- (app_nil_r raw).
  apply mlsMessage_RT; [exact Hw|]. subst raw. apply fills_mlsMessage; assumption.
Qed.
End WithCrypto.
