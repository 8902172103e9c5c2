(** Proofs that messages are protected, and welcomes made, as the RFC
    prescribes (SpecRfc.v). *)
From Verif Require Import ScheduleFacts MessageFacts TreeHashFacts DeliveryFacts.

Section WithCrypto.
Context {C : crypto}.

Ltac small := solve [auto | unfold short; vm_compute; reflexivity | apply secretSize_ok | apply keySize_ok | apply nonceSize_ok | now apply short_num].

(** ** Secrets of messages *)
Lemma expandAll_tree cs p : forall s, expandAll cs s (pathSteps p) = tree_secret cs s p.
Proof. unfold tree_secret. induction p as [|b p IH]; intros s; [reflexivity|]. cbn [pathSteps map expandAll fold_left]. exact (IH _). Qed.
Lemma secret_tree_rfc cs d k s : cipherSuiteDescriptions cs = Some d -> fits k ->
  exists t, deriveSecretTree cs (leaf_count k) s = Ok t /\ lenN t = node_count k /\
    forall p, in_tree k p -> nth_error t (N.to_nat (number k p)) = Some (Some (tree_secret cs s p)).
Proof.
  intros Hd Hk. destruct (secret_tree_secrets cs d k Hd Hk s) as (t & E & L & H). exists t. split; [exact E|]. split; [exact L|].
  intros p Hp. rewrite <- expandAll_tree. now apply H.
Qed.
Lemma expandAll_ratchet cs s a n :
  expandAll cs (expandAll cs s [(kindLabel a, [])]) (generationSteps (N.of_nat n)) = ratchet_secret cs s a n.
Proof.
  induction n as [|n IH]; [destruct a; reflexivity|].
  replace (N.of_nat (S n)) with (N.of_nat n + 1) by lia. rewrite generationSteps_succ, expandAll_app, IH. reflexivity.
Qed.
Lemma expandAll_message cs s p a n :
  expandAll cs s (messageSteps p a n) = ratchet_secret cs (tree_secret cs s p) a (N.to_nat n).
Proof.
  unfold messageSteps. rewrite !expandAll_app, expandAll_tree. rewrite <- (N2Nat.id n) at 1. apply expandAll_ratchet.
Qed.

Lemma gives_deriveNext cs s g : g < 2 ^ 32 - 1 ->
  gives (deriveNext cs (mkRatchetSecret s g)) (mkRatchetSecret (DeriveTreeSecret cs s (str "secret") g (secretSize cs)) (g + 1)) (known_suite cs).
Proof.
  intros Hg. unfold deriveNext, deriveTreeSecret. cbn [addUint32 rs_secret rs_generation].
  eapply gives_weaken.
  - eapply gives_bind; [apply gives_extractSize|]. eapply gives_bind; [eapply gives_bind; [apply (gives_ok _ True)|]|].
    + rewrite <- num_be. apply gives_expand_short.
    + rewrite N.mod_small by lia. apply (gives_ok _ True).
  - intros Hk. splits; small.
Qed.
Lemma gives_forward cs s a n : forall i, N.of_nat i + N.of_nat n < 2 ^ 32 ->
  gives (ratchetForward cs (mkRatchetSecret (ratchet_secret cs s a i) (N.of_nat i)) n)
    (mkRatchetSecret (ratchet_secret cs s a (i + n)) (N.of_nat (i + n))) (known_suite cs).
Proof.
  induction n as [|n IH]; intros i Hi; cbn [ratchetForward].
  - rewrite Nat.add_0_r. apply gives_ok.
  - eapply gives_weaken.
    + eapply gives_bind; [apply gives_deriveNext; lia|]. replace (N.of_nat i + 1) with (N.of_nat (S i)) by lia.
      change (DeriveTreeSecret cs (ratchet_secret cs s a i) (str "secret") (N.of_nat i) (secretSize cs)) with (ratchet_secret cs s a (S i)).
      replace (i + S n)%nat with (S i + n)%nat by lia. apply IH. lia.
    + tauto.
Qed.
Lemma content_label b : ratchetLabelFromContentType (content_type b) = Ok (kindLabel (match b with BApplication _ => true | _ => false end)).
Proof. destruct b; reflexivity. Qed.
Lemma gives_messageSecret g k p li b n : fits k -> lenN (gr_tree g) = node_count k -> length p = k -> number k p = leaf_position li -> n < 2 ^ 32 ->
  gives (messageSecret g li (content_type b) n)
    (mkRatchetSecret (content_secret (gr_context g) (gr_epochSecret g) p b n) n) (known_suite (gc_cipherSuite (gr_context g))).
Proof.
  intros Hk Ht Hp Hn Hg. unfold messageSecret. set (cs := gc_cipherSuite (gr_context g)).
  eapply gives_weaken.
  - eapply gives_bind; [apply gives_deriveSecret|]. change secretLabelEncryption with (str "encryption").
    rewrite (numLeaves_tree _ k Hk Ht). rewrite content_label. cbn [rbind].
    set (s := DeriveSecret cs (gr_epochSecret g) (str "encryption")).
    assert (G : gives (let! st := deriveSecretTree cs (leaf_count k) s in
                       deriveRatchetRoot cs st (nodeIndexOf li) (kindLabel match b with BApplication _ => true | _ => false end))
                (mkRatchetSecret (ratchet_secret cs (tree_secret cs s p) (match b with BApplication _ => true | _ => false end) 0) 0) (known_suite cs)).
    { destruct (cipherSuiteDescriptions cs) as [d|] eqn:Hd.
      - destruct (secret_tree_secrets cs d k Hd Hk s) as (t & Et & Lt & At). rewrite Et. cbn [rbind].
        assert (Hin : in_tree k p) by (unfold in_tree; lia).
        unfold deriveRatchetRoot. change (nodeIndexOf li) with (leaf_position li). rewrite <- Hn.
        unfold getSecret. rewrite (proj2 (getN_ok _ _ _) (At p Hin)). cbn [rbind]. rewrite expandAll_tree.
        eapply gives_weaken.
        + eapply gives_bind; [apply gives_extractSize|]. eapply gives_bind; [apply gives_expand_short|].
          eapply gives_eq; [apply (gives_ok _ True)|]. unfold kindLabel. cbn [ratchet_secret]. reflexivity.
        + intros H. splits; auto using secretSize_ok, short_nil. destruct b; small.
      - split.
        + intros v Hv. apply rbind_ok in Hv as (t & _ & Hv). unfold deriveRatchetRoot in Hv. apply rbind_ok in Hv as (nh & Hv & _).
          apply extractSize_some in Hv as (d & Hd' & _). congruence.
        + intros (d & Hd'). rewrite suite_eq in Hd'. congruence. }
    assert (G2 : gives (let! st := deriveSecretTree cs (leaf_count k) s in
                        let! secret := deriveRatchetRoot cs st (nodeIndexOf li) (kindLabel match b with BApplication _ => true | _ => false end) in
                        ratchetForward cs secret (N.to_nat n))
                (mkRatchetSecret (content_secret (gr_context g) (gr_epochSecret g) p b n) n) (known_suite cs /\ known_suite cs)).
    { assert (A : forall {A B D} (m : res A) (f : A -> res B) (h : B -> res D), rbind m (fun x => rbind (f x) h) = rbind (rbind m f) h)
        by (intros; destruct m; reflexivity).
      rewrite A. eapply gives_bind; [exact G|].
      pose proof (gives_forward cs (tree_secret cs s p) (match b with BApplication _ => true | _ => false end) (N.to_nat n) 0 ltac:(lia)) as F.
      cbn [Nat.add N.of_nat] in F. rewrite N2Nat.id in F. exact F. }
    exact G2.
  - intros H. splits; small.
Qed.

(** ** Keys and nonces of the content *)
Lemma xorGuard_xor : forall g n r, xorGuard n g = Ok r -> r = xor_guard n g.
Proof.
  induction g as [|x g IH]; intros n r H.
  - destruct n; cbn in H; apply Ok_inj in H; now subst.
  - destruct n as [|y n]; cbn in H; [discriminate|]. apply rbind_ok in H as (r' & Hr & H). apply Ok_inj in H. subst r.
    cbn [xor_guard]. f_equal. now apply IH.
Qed.
Lemma xorGuard_total : forall g n, lenN g <= lenN n -> xorGuard n g = Ok (xor_guard n g).
Proof.
  induction g as [|x g IH]; intros n H.
  - now destruct n.
  - destruct n as [|y n]; [unfold lenN in H; cbn in H; lia|]. cbn [xorGuard xor_guard]. rewrite IH; [reflexivity|].
    unfold lenN in *. cbn [length] in H. lia.
Qed.
Lemma gives_deriveKey cs s n : gives (deriveKey cs (mkRatchetSecret s n)) (ratchet_key cs s n) (known_suite cs).
Proof.
  unfold deriveKey, deriveTreeSecret. cbn [addUint32 rs_secret rs_generation rbind]. rewrite <- num_be.
  eapply gives_weaken; [eapply gives_bind; [apply gives_keySize|apply gives_expand_short]|]. intros H. splits; small.
Qed.
Lemma gives_deriveNonce cs s n : gives (deriveNonce cs (mkRatchetSecret s n)) (ratchet_nonce cs s n) (known_suite cs).
Proof.
  unfold deriveNonce, deriveTreeSecret. cbn [addUint32 rs_secret rs_generation rbind]. rewrite <- num_be.
  eapply gives_weaken; [eapply gives_bind; [apply gives_nonceSize|apply gives_expand_short]|]. intros H. splits; small.
Qed.
Lemma gives_keyAndNonce cs s n guard :
  gives (derivePrivateMessageKeyAndNonce cs (mkRatchetSecret s n) guard)
    (ratchet_key cs s n, xor_guard (ratchet_nonce cs s n) guard) (known_suite cs /\ lenN guard <= lenN (ratchet_nonce cs s n)).
Proof.
  unfold derivePrivateMessageKeyAndNonce. eapply gives_weaken.
  - eapply gives_bind; [apply gives_deriveKey|]. eapply gives_bind; [apply gives_deriveNonce|].
    eapply (gives_bind _ _ _ _ (lenN guard <= lenN (ratchet_nonce cs s n)) True); [split; [apply xorGuard_xor|apply xorGuard_total]|apply gives_ok].
  - tauto.
Qed.

(** ** Keys and nonces of the sender data *)
Lemma gives_sample cs ct : gives (sampleCiphertext cs ct) (sample cs ct) (known_suite cs).
Proof.
  unfold sampleCiphertext. eapply gives_weaken.
  - eapply gives_bind; [apply gives_extractSize|]. eapply gives_eq; [apply (gives_ok _ True)|].
    unfold sample. destruct (N.ltb_spec (lenN ct) (secretSize cs)); [|reflexivity].
    symmetry. apply firstn_all2. unfold lenN in *. lia.
  - tauto.
Qed.
Lemma sample_short cs ct : short (sample cs ct).
Proof.
  unfold short, sample, lenN. pose proof (firstn_le_length (N.to_nat (secretSize cs)) ct).
  assert (N.of_nat (length (firstn (N.to_nat (secretSize cs)) ct)) <= secretSize cs) by (rewrite firstn_length; lia).
  unfold secretSize in *. destruct (kdfOf cs); cbn [hashSize] in *; lia.
Qed.
Lemma gives_senderDataKey cs s ct : gives (expandSenderDataKey cs s ct) (sender_data_key cs s ct) (known_suite cs).
Proof.
  unfold expandSenderDataKey. eapply gives_weaken.
  - eapply gives_bind; [apply gives_sample|]. eapply gives_bind; [apply gives_keySize|]. apply gives_expand_short.
  - intros H. splits; auto using sample_short; small.
Qed.
Lemma gives_senderDataNonce cs s ct : gives (expandSenderDataNonce cs s ct) (sender_data_nonce cs s ct) (known_suite cs).
Proof.
  unfold expandSenderDataNonce. eapply gives_weaken.
  - eapply gives_bind; [apply gives_sample|]. eapply gives_bind; [apply gives_nonceSize|]. apply gives_expand_short.
  - intros H. splits; auto using sample_short; small.
Qed.

(** ** AEAD *)
(** ** Private messages *)
Lemma zeroes_repeat n : zeroes (N.of_nat n) = repeat x00 n.
Proof. unfold zeroes. now rewrite Nat2N.id. Qed.

Lemma encryptPrivateMessage_rfc cs s n sds content pc sd m : sd_generation sd = n -> pmc_body pc = fc_body content ->
  encryptPrivateMessage cs (mkRatchetSecret s n) sds content pc sd = Ok m ->
  let ct := sealed cs (ratchet_key cs s n) (xor_guard (ratchet_nonce cs s n) (sd_reuseGuard sd))
      (enc_privateContentAAD (fc_groupID content) (fc_epoch content) (content_type (fc_body content)) (fc_authenticatedData content))
      (enc_privateMessageContent pc) in
  m = mkPrivateMessage (fc_groupID content) (fc_epoch content) (content_type (fc_body content)) (fc_authenticatedData content)
    (sealed cs (sender_data_key cs sds ct) (sender_data_nonce cs sds ct)
       (enc_senderDataAAD (fc_groupID content) (fc_epoch content) (content_type (fc_body content))) (enc_senderData sd)) ct.
Proof.
  intros Hn Hb H ct. unfold encryptPrivateMessage in H. apply rbind_ok in H as (c & Hc & H). apply rbind_ok in H as (e & He & H).
  apply Ok_inj in H. subst m. unfold encryptPrivateMessageContent in Hc. apply rbind_ok in Hc as (plain & Hp & Hc).
  apply rbind_ok in Hc as ([key nonce] & Hk & Hc). apply (gives_ok_only _ _ _ _ (gives_keyAndNonce cs s n (sd_reuseGuard sd))) in Hk.
  apply pair_equal_spec in Hk as [-> ->]. apply rbind_ok in Hc as (aad & Ha & Hc). apply aeadSeal_sealed in Hc.
  rewrite <- content_type_eq in *. rewrite (writes_privateMessageContent _ _ Hp), (writes_privateContentAAD _ _ _ _ _ Ha) in Hc.
  fold ct in Hc. subst c. f_equal. unfold encryptSenderData in He.
  apply rbind_ok in He as (k2 & Hk2 & He). apply (gives_ok_only _ _ _ _ (gives_senderDataKey cs sds ct)) in Hk2. subst k2.
  apply rbind_ok in He as (n2 & Hn2 & He). apply (gives_ok_only _ _ _ _ (gives_senderDataNonce cs sds ct)) in Hn2. subst n2.
  apply rbind_ok in He as (aad2 & Ha2 & He). apply rbind_ok in He as (raw & Hr & He). apply aeadSeal_sealed in He.
  rewrite <- content_type_eq in *. rewrite (writes_senderDataAAD _ _ _ _ Ha2), (writes_senderData _ _ Hr) in He. exact He.
Qed.

Lemma group_encrypts_rfc g k p content pc guard raw :
  fits k -> lenN (gr_tree g) = node_count k -> length p = k -> number k p = leaf_position (gr_myLeafIndex g) ->
  pmc_body pc = fc_body content -> groupEncryptPrivateMessage g content pc guard = Ok raw ->
  raw = enc_mlsMessage (MPrivate (private_message (gr_context g) (gr_epochSecret g) p (mkSenderData (gr_myLeafIndex g) 0 guard)
    content (pmc_auth pc) 0)).
Proof.
  intros Hk Ht Hp Hn Hb H. unfold groupEncryptPrivateMessage in H. apply rbind_ok in H as (s & Hs & H).
  rewrite <- content_type_eq in Hs.
  apply (gives_ok_only _ _ _ _ (gives_messageSecret g k p (gr_myLeafIndex g) (fc_body content) 0 Hk Ht Hp Hn eq_refl)) in Hs. subst s.
  apply rbind_ok in H as (sds & Hsds & H). apply (gives_ok_only _ _ _ _ (gives_deriveSecret _ _ _)) in Hsds. subst sds.
  apply rbind_ok in H as (m & Hm & H). apply encryptPrivateMessage_rfc in Hm; auto. rewrite (writes_mlsMessage _ _ H). f_equal. f_equal.
  rewrite Hm. unfold private_message, content_key, content_nonce, sender_data_secret. cbn [sd_generation sd_reuseGuard].
  replace (mkPrivateMessageContent (fc_body content) (pmc_auth pc)) with pc by (destruct pc; cbn in *; subst; reflexivity).
  change (zeroes 0) with (@nil byte). rewrite app_nil_r. reflexivity.
Qed.

Lemma application_message_rfc g k p data rnd guard raw :
  fits k -> lenN (gr_tree g) = node_count k -> length p = k -> number k p = leaf_position (gr_myLeafIndex g) ->
  createApplicationMessage g data rnd guard = Ok raw ->
  let ctx := gr_context g in
  let content := mkFramedContent (gc_groupID ctx) (gc_epoch ctx) (SMember (gr_myLeafIndex g)) [] (BApplication data) in
  exists sig,
    SignWithLabel (gc_cipherSuite ctx) (gr_signaturePriv g) (str "FramedContentTBS") (enc_framedContentTBS 2 content ctx) rnd sig /\
    raw = enc_mlsMessage (MPrivate (private_message ctx (gr_epochSecret g) p (mkSenderData (gr_myLeafIndex g) 0 guard) content (mkAuthData sig []) 0)).
Proof.
  intros Hk Ht Hp Hn H ctx content. unfold createApplicationMessage in H. apply rbind_ok in H as (pc & Hpc & H).
  unfold signPrivateMessageContent in Hpc. apply rbind_ok in Hpc as (ac & Hac & Hpc). apply Ok_inj in Hpc. subst pc.
  unfold signAuthenticatedContent in Hac. apply rbind_ok in Hac as (tbs & Htbs & Hac). apply rbind_ok in Hac as (sig & Hsig & Hac).
  apply Ok_inj in Hac. subst ac. exists sig. apply sign_only in Hsig. rewrite (writes_framedContentTBS _ _ _ _ Htbs) in Hsig.
  split; [exact Hsig|]. eapply group_encrypts_rfc in H; eauto.
Qed.

(** *** Opening *)
Lemma decryptSenderData_rfc cs m sds sd : decryptSenderData cs m sds = Ok sd ->
  opened cs (sender_data_key cs sds (privm_ciphertext m)) (sender_data_nonce cs sds (privm_ciphertext m))
    (enc_senderDataAAD (privm_groupID m) (privm_epoch m) (privm_contentType m)) (privm_encryptedSenderData m) = Some (enc_senderData sd) /\
  wf_senderData sd.
Proof.
  unfold decryptSenderData. intros H.
  apply rbind_ok in H as (key & Hk & H). apply (gives_ok_only _ _ _ _ (gives_senderDataKey cs sds _)) in Hk. subst key.
  apply rbind_ok in H as (nonce & Hn & H). apply (gives_ok_only _ _ _ _ (gives_senderDataNonce cs sds _)) in Hn. subst nonce.
  apply rbind_ok in H as (aad & Ha & H). rewrite <- (writes_senderDataAAD _ _ _ _ Ha).
  apply rbind_ok in H as (raw & Hr & H). apply aeadOpen_opened in Hr. apply unmarshal_ok in H. apply senderData_CANT in H as (Hw & e & He & ->).
  rewrite app_nil_r in Hr. rewrite Hr, (writes_senderData _ _ He). auto.
Qed.

Lemma messageSecret_in g k li ct n s : fits k -> lenN (gr_tree g) = node_count k -> messageSecret g li ct n = Ok s -> leaf_position li < node_count k.
Proof.
  intros Hk Ht H. unfold messageSecret in H. apply rbind_ok in H as (enc & He & H). rewrite (numLeaves_tree _ k Hk Ht) in H.
  apply rbind_ok in H as (st & Hst & H). apply rbind_ok in H as (label & _ & H). apply rbind_ok in H as (rt & Hr & _).
  unfold deriveSecret, extractSize, rmap in He. destruct (describe (gc_cipherSuite (gr_context g))) as [d|?|?|] eqn:Hd; try discriminate. apply describe_some in Hd.
  destruct (secret_tree_secrets _ d k Hd Hk enc) as (t & Et & Lt & _). rewrite Et in Hst. apply Ok_inj in Hst. subst t.
  unfold deriveRatchetRoot, getSecret in Hr. apply rbind_ok in Hr as (nh & _ & Hr). apply rbind_ok in Hr as (x & Hx & _).
  apply rbind_ok in Hx as (y & Hx & _). apply getN_ok in Hx. assert (Hl := proj1 (nth_error_Some _ _) (ltac:(rewrite Hx; discriminate))).
  change (nodeIndexOf li) with (leaf_position li) in Hl. unfold lenN in Lt. lia.
Qed.

Lemma leaf_position_designated li : leaf_position li = 2 * designated li.
Proof. unfold leaf_position, designated. change (2 ^ 32) with (2 * 2 ^ 31). apply N.mul_mod_distr_l; discriminate. Qed.
Lemma designated_path k li : fits k -> leaf_position li < node_count k ->
  designated li < leaf_count k /\ length (leafPath k (designated li)) = k /\ number k (leafPath k (designated li)) = leaf_position li.
Proof.
  intros Hk Hl. assert (designated li < leaf_count k).
  { rewrite leaf_position_designated in Hl. unfold node_count in Hl. rewrite Nat2N.inj_succ, N.pow_succ_r' in Hl. unfold leaf_count. lia. }
  split; [assumption|]. split; [apply leafPath_length|]. rewrite leafPath_number by assumption. symmetry. apply leaf_position_designated.
Qed.

Lemma carries_rfc g k raw m ac : fits k -> lenN (gr_tree g) = node_count k -> unmarshal getMlsMessage raw = Ok (MPrivate m) ->
  carries g raw ac -> good_body (fc_body (ac_content ac)) ->
  raw = enc_mlsMessage (MPrivate m) /\ ac_wireFormat ac = 2 /\
  exists sd padding, designated (sd_leafIndex sd) < leaf_count k /\
    protects (gr_context g) (gr_epochSecret g) (leafPath k (designated (sd_leafIndex sd))) sd (ac_content ac) (ac_auth ac) padding m.
Proof.
  intros Hk Ht Hraw Hc Hgood. split.
  { apply unmarshal_ok in Hraw. apply mlsMessage_CAN in Hraw. destruct Hraw as [_ Hg]. destruct (Hg I) as (e & He & E). rewrite app_nil_r in E. subst e. exact (writes_mlsMessage _ _ He). }
  destruct Hc as [m' Hm'|m' sds sd secret pc Hm' H1 H2 H3 H4]; [congruence|]. assert (m' = m) by congruence. subst m'. clear Hm'.
  split; [reflexivity|]. apply unmarshal_mls_wf in Hraw as [Hw Hct]. cbn [ac_content fc_body] in Hgood.
  apply (gives_ok_only _ _ _ _ (gives_deriveSecret _ _ _)) in H1. subst sds.
  apply decryptSenderData_rfc in H2 as [Hsd (Hsd1 & Hsd2 & Hsd3)].
  destruct (padding_only_zero _ _ _ _ _ H4 Hct Hgood) as (key & nonce & aad & e & n & G1 & G2 & G3 & G4 & G5).
  destruct (designated_path k (sd_leafIndex sd) Hk (messageSecret_in _ _ _ _ _ _ Hk Ht H3)) as (Hl & Hp & Hn).
  rewrite G5, <- content_type_eq in H3.
  apply (gives_ok_only _ _ _ _ (gives_messageSecret g k _ (sd_leafIndex sd) (pmc_body pc) (sd_generation sd) Hk Ht Hp Hn Hsd2)) in H3. subst secret.
  apply (gives_ok_only _ _ _ _ (gives_keyAndNonce _ _ _ _)) in G1. apply pair_equal_spec in G1 as [-> ->].
  rewrite (writes_privateContentAAD _ _ _ _ _ G2) in G4. apply aeadOpen_opened in G4. rewrite (writes_privateMessageContent _ _ G3) in G4.
  exists sd, (N.of_nat n). split; [exact Hl|].
  rewrite G5, <- content_type_eq in *. constructor; cbn [ac_content ac_auth fc_sender fc_groupID fc_epoch fc_body fc_authenticatedData]; auto.
  rewrite zeroes_repeat. replace (mkPrivateMessageContent (pmc_body pc) (pmc_auth pc)) with pc by (now destruct pc). exact G4.
Qed.
End WithCrypto.
