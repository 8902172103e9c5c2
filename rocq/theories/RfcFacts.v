(** Proofs that the cryptographic operations follow the RFC (SpecRfc.v). *)
From Verif Require Import BaseFacts SpecRfc WireFacts CodecFacts WireSpecFacts Framing ModelFacts Group.

Lemma suite_eq cs : suite cs = cipherSuiteDescriptions cs.
Proof. destruct cs as [|p]; [reflexivity|]. do 3 (destruct p as [p|p|]; try reflexivity). Qed.
Lemma kdfOf_some cs d : cipherSuiteDescriptions cs = Some d -> kdfOf cs = sd_kdf d.
Proof. unfold kdfOf. rewrite suite_eq. now intros ->. Qed.
Lemma hashOf_some cs d : cipherSuiteDescriptions cs = Some d -> hashOf cs = sd_hash d.
Proof. unfold hashOf. rewrite suite_eq. now intros ->. Qed.
Lemma aeadOf_some cs d : cipherSuiteDescriptions cs = Some d -> aeadOf cs = sd_aead d.
Proof. unfold aeadOf. rewrite suite_eq. now intros ->. Qed.
Lemma describe_some cs d : describe cs = Ok d -> cipherSuiteDescriptions cs = Some d.
Proof. unfold describe. destruct (cipherSuiteDescriptions cs); congruence. Qed.
Lemma describe_known cs : known_suite cs -> exists d, describe cs = Ok d.
Proof. intros [d Hd]. rewrite suite_eq in Hd. unfold describe. rewrite Hd. eauto. Qed.
Lemma describe_is_known cs d : describe cs = Ok d -> known_suite cs.
Proof. intros H. apply describe_some in H. exists d. now rewrite suite_eq. Qed.

(** ** Sequencing *)
Lemma gives_ok {A} (v : A) P : gives (Ok v) v P.
Proof. split; [now intros x [= <-]|auto]. Qed.
Lemma gives_bind {A B} (r : res A) v (f : A -> res B) w P Q :
  gives r v P -> gives (f v) w Q -> gives (rbind r f) w (P /\ Q).
Proof.
  intros [H1 H2] [H3 H4]. split.
  - intros x Hx. apply rbind_ok in Hx as (a & Ha & Hx). rewrite (H1 _ Ha) in Hx. auto.
  - intros [HP HQ]. rewrite (H2 HP). cbn [rbind]. auto.
Qed.
Lemma gives_weaken {A} (r : res A) v (P Q : Prop) : gives r v P -> (Q -> P) -> gives r v Q.
Proof. unfold gives. tauto. Qed.
Lemma gives_eq {A} (r : res A) v w P : gives r v P -> v = w -> gives r w P.
Proof. now intros ? <-. Qed.
Lemma gives_put w b (P : Prop) : writes w b -> encodes w b -> (P -> lenN b < 2 ^ 30) -> gives w b P.
Proof. intros H1 H2 H3. split; [exact H1|]. intros HP. exact (H2 (H3 HP)). Qed.

Lemma short_fits b : short b -> lenN b < 2 ^ 30.
Proof. unfold short. intros H. eapply N.lt_trans; [exact H|]. reflexivity. Qed.

Section WithCrypto.
Context {C : crypto}.

Lemma gives_describe cs (f : suiteDesc -> bytes) v :
  (forall d, cipherSuiteDescriptions cs = Some d -> f d = v) ->
  gives (let! d := describe cs in Ok (f d)) v (known_suite cs).
Proof.
  intros H. split.
  - intros x Hx. apply rbind_ok in Hx as (d & Hd & Hx). apply Ok_inj in Hx. subst. apply H, describe_some, Hd.
  - intros Hk. destruct (describe_known _ Hk) as [d Hd]. rewrite Hd. cbn [rbind]. f_equal. apply H, describe_some, Hd.
Qed.
Lemma gives_hashSum cs m : gives (hashSum cs m) (Hash cs m) (known_suite cs).
Proof. apply (gives_describe cs (fun d => cr_hash C (sd_hash d) m)). intros d Hd. unfold Hash. now rewrite (hashOf_some _ _ Hd). Qed.
Lemma gives_extract cs ikm salt : gives (extract cs ikm salt) (Extract cs salt ikm) (known_suite cs).
Proof. apply (gives_describe cs (fun d => cr_extract C (sd_kdf d) ikm salt)). intros d Hd. unfold Extract. now rewrite (kdfOf_some _ _ Hd). Qed.
Lemma gives_signMAC cs k m : gives (signMAC cs k m) (MAC cs k m) (known_suite cs).
Proof. apply (gives_describe cs (fun d => cr_hmac C (sd_hash d) k m)). intros d Hd. unfold MAC. now rewrite (hashOf_some _ _ Hd). Qed.
Lemma gives_extractSize cs : gives (extractSize cs) (secretSize cs) (known_suite cs).
Proof.
  unfold extractSize. split.
  - intros v Hv. destruct (describe cs) as [d| | |] eqn:E; try discriminate. apply Ok_inj in Hv. subst v.
    unfold secretSize. now rewrite (kdfOf_some _ _ (describe_some _ _ E)).
  - intros Hk. destruct (describe_known _ Hk) as [d Hd]. rewrite Hd. cbn [rmap]. unfold secretSize.
    now rewrite (kdfOf_some _ _ (describe_some _ _ Hd)).
Qed.
Lemma gives_keySize cs : gives (suiteKeySize cs) (keySize cs) (known_suite cs).
Proof.
  unfold suiteKeySize. split.
  - intros v Hv. destruct (describe cs) as [d| | |] eqn:E; try discriminate. apply Ok_inj in Hv. subst v.
    unfold keySize. now rewrite (aeadOf_some _ _ (describe_some _ _ E)).
  - intros Hk. destruct (describe_known _ Hk) as [d Hd]. rewrite Hd. cbn [rmap]. unfold keySize.
    now rewrite (aeadOf_some _ _ (describe_some _ _ Hd)).
Qed.
Lemma gives_nonceSize cs : gives (suiteNonceSize cs) (nonceSize cs) (known_suite cs).
Proof.
  unfold suiteNonceSize. split.
  - intros v Hv. destruct (describe cs) as [d| | |] eqn:E; try discriminate. apply Ok_inj in Hv. now subst v.
  - intros Hk. destruct (describe_known _ Hk) as [d Hd]. now rewrite Hd.
Qed.

Lemma lenN_num k n : lenN (num k n) = N.of_nat k.
Proof. unfold lenN. now rewrite num_length. Qed.
Lemma vec_len_le b : lenN b < 2 ^ 30 -> lenN (vec b) <= lenN b + 4.
Proof.
  intros H. unfold vec. rewrite lenN_app'.
  destruct (_ <? _); [|destruct (_ <? _)]; rewrite lenN_num; lia.
Qed.

Lemma gives_expand cs s l c n :
  gives (expandWithLabel cs s l c n) (ExpandWithLabel cs s l c n)
    (known_suite cs /\ n <= 255 * secretSize cs /\ lenN (enc_kdfLabel n l c) < 2 ^ 30).
Proof.
  unfold expandWithLabel. split.
  - intros v Hv. apply rbind_ok in Hv as (e & He & Hv). apply rbind_ok in Hv as (d & Hd & Hv).
    destruct (_ <? _) in Hv; [discriminate|]. apply Ok_inj in Hv. subst v.
    unfold ExpandWithLabel. rewrite (kdfOf_some _ _ (describe_some _ _ Hd)). now rewrite (writes_kdfLabel _ _ _ _ He).
  - intros (Hk & Hn & Hl). rewrite (fills_kdfLabel _ _ _ Hl). cbn [rbind].
    destruct (describe_known _ Hk) as [d Hd]. rewrite Hd. cbn [rbind].
    unfold secretSize in Hn. rewrite (kdfOf_some _ _ (describe_some _ _ Hd)) in Hn.
    destruct (N.ltb_spec (255 * hashSize (sd_kdf d)) n); [lia|].
    unfold ExpandWithLabel. now rewrite (kdfOf_some _ _ (describe_some _ _ Hd)).
Qed.
Lemma kdfLabel_short n l c : short l -> short c -> lenN (enc_kdfLabel n l c) < 2 ^ 30.
Proof.
  unfold short, enc_kdfLabel. intros Hl Hc.
  assert (Hm : lenN (str "MLS 1.0 " ++ l) < 2 ^ 28 + 8) by (rewrite lenN_app'; change (lenN (str "MLS 1.0 ")) with 8; lia).
  rewrite !lenN_app', lenN_num. pose proof (vec_len_le (str "MLS 1.0 " ++ l) ltac:(lia)). pose proof (vec_len_le c ltac:(lia)).
  cbn in *. lia.
Qed.

Lemma secretSize_ok cs : secretSize cs <= 255 * secretSize cs.
Proof. lia. Qed.
Lemma size_ok cs n : n <= 255 * 32 -> n <= 255 * secretSize cs.
Proof. intros H. unfold secretSize. destruct (kdfOf cs); cbn [hashSize]; lia. Qed.
Lemma keySize_ok cs : keySize cs <= 255 * secretSize cs.
Proof. apply size_ok. unfold keySize. destruct (aeadOf cs); cbn [aeadKeySize]; lia. Qed.
Lemma nonceSize_ok cs : nonceSize cs <= 255 * secretSize cs.
Proof. apply size_ok. unfold nonceSize, aeadNonceSize. lia. Qed.
Lemma short_nil : short [].
Proof. reflexivity. Qed.
Lemma short_num k n : N.of_nat k < 2 ^ 28 -> short (num k n).
Proof. unfold short. now rewrite lenN_num. Qed.

Lemma gives_expand_short cs s l c n :
  gives (expandWithLabel cs s l c n) (ExpandWithLabel cs s l c n)
    (known_suite cs /\ n <= 255 * secretSize cs /\ short l /\ short c).
Proof. eapply gives_weaken; [apply gives_expand|]. intros (? & ? & ? & ?). splits; auto. now apply kdfLabel_short. Qed.
Lemma gives_deriveSecret cs s l : gives (deriveSecret cs s l) (DeriveSecret cs s l) (known_suite cs /\ short l).
Proof.
  unfold deriveSecret. eapply gives_weaken; [eapply gives_bind; [apply gives_extractSize|apply gives_expand_short]|].
  intros [? ?]. splits; auto using secretSize_ok, short_nil.
Qed.
Lemma gives_groupContext c : gives (putGroupContext c) (enc_groupContext c) (short (enc_groupContext c)).
Proof. apply gives_put; [apply writes_groupContext|apply fills_groupContext|]. exact (short_fits _). Qed.


Ltac small := solve [auto | unfold short; vm_compute; reflexivity | apply secretSize_ok | apply keySize_ok | apply nonceSize_ok | now apply short_num].
Ltac gv := match goal with
  | |- gives (rbind _ _) _ _ => eapply gives_bind; [gv|gv]
  | |- gives (extract _ _ _) _ _ => apply gives_extract
  | |- gives (hashSum _ _) _ _ => apply gives_hashSum
  | |- gives (signMAC _ _ _) _ _ => apply gives_signMAC
  | |- gives (extractSize _) _ _ => apply gives_extractSize
  | |- gives (suiteKeySize _) _ _ => apply gives_keySize
  | |- gives (suiteNonceSize _) _ _ => apply gives_nonceSize
  | |- gives (expandWithLabel _ _ _ _ _) _ _ => apply gives_expand_short
  | |- gives (deriveSecret _ _ _) _ _ => apply gives_deriveSecret
  | |- gives (putGroupContext _) _ _ => apply gives_groupContext
  | |- gives (Ok _) _ _ => apply (gives_ok _ True)
  end.
Ltac giv := eapply gives_weaken; [gv|intros; repeat match goal with H : _ /\ _ |- _ => destruct H end; splits; try small].

Lemma gives_joiner ctx i c :
  gives (extractJoinerSecret ctx i c) (joiner_secret ctx i c) (known_suite (gc_cipherSuite ctx) /\ short (enc_groupContext ctx)).
Proof. unfold extractJoinerSecret. giv. Qed.
Lemma gives_epoch ctx j p :
  gives (extractEpochSecret ctx j p) (epoch_secret ctx j p) (known_suite (gc_cipherSuite ctx) /\ short (enc_groupContext ctx)).
Proof. unfold extractEpochSecret. giv. Qed.
Lemma gives_welcome cs j p : gives (extractWelcomeSecret cs j p) (welcome_secret cs j p) (known_suite cs).
Proof. unfold extractWelcomeSecret. giv. Qed.
Lemma gives_confirmation ctx e : gives (signConfirmationTag ctx e) (confirmation_tag ctx e) (known_suite (gc_cipherSuite ctx)).
Proof. unfold signConfirmationTag. giv. Qed.
Lemma gives_exporter cs s l c n :
  gives (deriveExporter cs s l c n) (exporter cs s l c n) (known_suite cs /\ n <= 255 * secretSize cs /\ short l /\ short (Hash cs c)).
Proof. unfold deriveExporter. giv. Qed.
Lemma gives_confirmed cs w c sig interim : wf_framedContent c -> (exists k, fc_body c = BCommit k) ->
  gives (confirmedTranscriptHash cs w c sig interim) (confirmed_transcript_hash cs interim w c sig)
    (known_suite cs /\ short (enc_confirmedTranscriptHashInput w c sig)).
Proof.
  intros Hw Hc. unfold confirmedTranscriptHash. eapply gives_weaken.
  - eapply gives_bind; [|apply gives_hashSum].
    apply (gives_put _ _ (short (enc_confirmedTranscriptHashInput w c sig)) (writes_confirmedTranscriptHashInput w c sig)
             (fills_confirmedTranscriptHashInput w c sig Hw Hc)). exact (short_fits _).
  - tauto.
Qed.
Lemma gives_interim cs h t : gives (nextInterimTranscriptHash cs h t) (interim_transcript_hash cs h t) (known_suite cs /\ short t).
Proof.
  unfold nextInterimTranscriptHash. eapply gives_weaken.
  - eapply gives_bind; [|apply gives_hashSum].
    apply (gives_put _ _ (short t) (writes_vec t) (fills_vec t)). unfold short. intros H. pose proof (vec_len_le t). lia.
  - tauto.
Qed.
Lemma gives_refHash cs l v : gives (refHash cs l v) (RefHash cs l v) (known_suite cs /\ short l /\ short v).
Proof.
  unfold refHash. eapply gives_weaken.
  - eapply gives_bind; [|apply gives_hashSum].
    apply (gives_put _ _ (short l /\ short v) (writes_refHashInput l v) (fills_refHashInput l v)).
    unfold short, enc_refHashInput. intros [H1 H2]. rewrite lenN_app'. pose proof (vec_len_le l). pose proof (vec_len_le v). lia.
  - tauto.
Qed.
Lemma gives_keyPackageRef k : wf_keyPackage k ->
  gives (keyPackageRef k) (KeyPackageRef k) (known_suite (kp_cipherSuite k) /\ short (enc_keyPackage k)).
Proof.
  intros Hw. unfold keyPackageRef. eapply gives_weaken.
  - eapply gives_bind; [|apply gives_refHash].
    apply (gives_put _ _ (short (enc_keyPackage k)) (writes_keyPackage k) (fills_keyPackage k Hw)). exact (short_fits _).
  - intros [? ?]. splits; auto. small.
Qed.
Lemma gives_proposalRef cs ac p : wf_authenticatedContent ac -> fc_body (ac_content ac) = BProposal p ->
  gives (generateProposalRef cs ac) (ProposalRef cs ac) (known_suite cs /\ short (enc_authenticatedContent ac)).
Proof.
  intros Hw Hp. unfold generateProposalRef. rewrite Hp. eapply gives_weaken.
  - eapply gives_bind; [|apply gives_refHash].
    apply (gives_put _ _ (short (enc_authenticatedContent ac)) (writes_authenticatedContent ac) (fills_authenticatedContent ac Hw)). exact (short_fits _).
  - intros [? ?]. splits; auto. small.
Qed.

(** ** The PSK secret *)
Lemma num2_mod n : num 2 (n mod 65536) = num 2 n.
Proof.
  cbn [num app]. assert (E1 : n mod 65536 mod 256 = n mod 256).
  { change 65536 with (256 * 256). rewrite N.mod_mul_r by discriminate. rewrite N.mul_comm, N.mod_add by discriminate. now rewrite N.mod_mod. }
  assert (E2 : n mod 65536 / 256 = (n / 256) mod 256).
  { change 65536 with (256 * 256). rewrite N.mod_mul_r by discriminate.
    rewrite N.mul_comm, N.div_add by discriminate. rewrite (N.div_small (n mod 256)) by (now apply N.mod_lt). apply N.add_0_l. }
  now rewrite E1, E2, N.mod_mod.
Qed.
Lemma pskLabel_mod id i n : enc_pskLabel id (i mod 65536) (n mod 65536) = enc_pskLabel id i n.
Proof. unfold enc_pskLabel. now rewrite (num2_mod i), (num2_mod n). Qed.
Lemma pskLabel_short id i n : lenN (enc_pskID id) < 2 ^ 20 -> short (enc_pskLabel id i n).
Proof. unfold short, enc_pskLabel. intros H. rewrite !lenN_app', !lenN_num. lia. Qed.
Lemma gives_pskLoop cs count l : forall i b,
  gives (pskLoop cs (secretSize cs) count i b l) (psk_secret_from cs count i b l)
    (known_suite cs /\ Forall (fun x => lenN (enc_pskID (fst x)) < 2 ^ 20) l).
Proof.
  induction l as [|[id psk] l IH]; intros i b; cbn [pskLoop psk_secret_from].
  - apply gives_ok.
  - change zeros with zeroes. eapply gives_weaken.
    + eapply gives_bind; [apply gives_extract|].
      eapply gives_bind; [eapply gives_eq; [|apply pskLabel_mod]; apply (gives_put _ _ (lenN (enc_pskID id) < 2 ^ 20) (writes_pskLabel _ _ _) (fills_pskLabel _ _ _))|].
      * intros H. rewrite pskLabel_mod. apply short_fits, pskLabel_short, H.
      * eapply gives_bind; [apply gives_expand_short|]. eapply gives_bind; [apply gives_extract|]. apply IH.
    + intros [Hk Hf]. inversion Hf; subst. cbn in H1. splits; auto using secretSize_ok, pskLabel_short. small.
Qed.
Lemma gives_pskSecret cs ids psks : length ids = length psks ->
  gives (extractPSKSecret cs ids psks) (psk_secret cs (combine ids psks))
    (known_suite cs /\ Forall (fun id => lenN (enc_pskID id) < 2 ^ 20) ids).
Proof.
  intros Hl. unfold extractPSKSecret, psk_secret.
  assert (E : lenN ids =? lenN psks = true) by (unfold lenN; rewrite Hl; apply N.eqb_refl). rewrite E. cbn [guard rbind].
  assert (E2 : lenN (combine ids psks) = lenN ids) by (unfold lenN; rewrite combine_length; f_equal; lia). rewrite E2.
  eapply gives_weaken; [eapply gives_bind; [apply gives_extractSize|change zeros with zeroes; apply gives_pskLoop]|].
  intros [Hk Hf]. splits; auto. rewrite Forall_forall in *. intros [id p] Hin. apply Hf. apply in_combine_l in Hin. exact Hin.
Qed.

(** ** Signatures and HPKE *)
Lemma sigVerify_iff alg key m sig : sigVerify alg key m sig = Ok true <-> verifies alg key m sig.
Proof.
  unfold sigVerify, verifies. destruct alg; split; intros H.
  1,3: apply Ok_inj, andb_prop in H; destruct H as [H1 H2]; apply N.eqb_eq in H1; auto.
  1,2: destruct H as [-> ->]; reflexivity.
  all: try (destruct (cr_ecdsaSigParses C sig); cbn [negb] in *; [|discriminate];
    destruct (cr_ecdsaPubValid C _ key); cbn [negb] in *; [|discriminate]; now apply Ok_inj in H).
  all: destruct H as (H1 & H2 & H3); now rewrite H1, H2, H3.
Qed.
Lemma labelled_short l c : short l -> short c -> lenN (enc_labelled l c) < 2 ^ 30.
Proof.
  unfold short, enc_labelled. intros Hl Hc.
  assert (Hm : lenN (str "MLS 1.0 " ++ l) < 2 ^ 28 + 8) by (rewrite lenN_app'; change (lenN (str "MLS 1.0 ")) with 8; lia).
  rewrite !lenN_app'. pose proof (vec_len_le (str "MLS 1.0 " ++ l) ltac:(lia)). pose proof (vec_len_le c ltac:(lia)). lia.
Qed.
Lemma verify_only cs key l c sig : verifyWithLabel cs key l c sig = Ok true -> VerifyWithLabel cs key l c sig.
Proof.
  unfold verifyWithLabel, VerifyWithLabel. intros H. destruct (putLabelled l c) as [m| | |] eqn:E; try discriminate.
  apply rbind_ok in H as (d & Hd & H). exists d. rewrite suite_eq. split; [now apply describe_some|].
  rewrite <- (writes_labelled _ _ _ E). now apply sigVerify_iff.
Qed.
Lemma verify_if cs key l c sig : lenN (enc_labelled l c) < 2 ^ 30 -> VerifyWithLabel cs key l c sig -> verifyWithLabel cs key l c sig = Ok true.
Proof.
  unfold verifyWithLabel, VerifyWithLabel. intros Hl (d & Hd & Hv). rewrite (fills_labelled _ _ Hl).
  rewrite suite_eq in Hd. unfold describe. rewrite Hd. cbn [rbind]. now apply sigVerify_iff.
Qed.
Lemma labelled_fits l c : short l -> lenN c < 2 ^ 30 -> putLabelled l c = Ok (enc_labelled l c).
Proof.
  unfold short, putLabelled, mlsLabel, enc_labelled. intros Hl Hc.
  assert (H : lenN (str "MLS 1.0 " ++ l) <? 2 ^ 30 = true).
  { apply N.ltb_lt. rewrite lenN_app'. change (lenN (str "MLS 1.0 ")) with 8. lia. }
  apply N.ltb_lt in Hc. rewrite (writeOpaqueVec_vec (_ ++ l)), H, (writeOpaqueVec_vec c), Hc. reflexivity.
Qed.
Lemma labelled_bound l c e : putLabelled l c = Ok e -> lenN c < 2 ^ 30.
Proof.
  unfold putLabelled. intros H. apply wapp_ok in H as (e1 & e2 & _ & H & _). apply writeOpaqueVec_ok in H. tauto.
Qed.
(** Signatures of what is encoded *)
Lemma put_verify cs key l w enc sig : writes w enc -> short l ->
  falseOnPutErr w (fun raw => verifyWithLabel cs key l raw sig) = Ok true <-> can_encode w /\ VerifyWithLabel cs key l enc sig.
Proof.
  intros Hw Hl. unfold can_encode, falseOnPutErr. destruct w as [raw| | |] eqn:E.
  - pose proof (Hw raw eq_refl) as <-. split.
    + intros H. split; [|now apply verify_only]. exists raw. split; [reflexivity|]. unfold verifyWithLabel in H.
      destruct (putLabelled l raw) as [m| | |] eqn:Em; try discriminate. now apply labelled_bound in Em.
    + intros [(e & He & Hlen) (d & Hd & Hv)]. apply Ok_inj in He. subst e. unfold verifyWithLabel. rewrite labelled_fits by assumption.
      rewrite suite_eq in Hd. unfold describe. rewrite Hd. cbn [rbind]. now apply sigVerify_iff.
  - split; [discriminate|]. intros [(x & Hx & _) _]. discriminate.
  - split; [discriminate|]. intros [(x & Hx & _) _]. discriminate.
  - split; [discriminate|]. intros [(x & Hx & _) _]. discriminate.
Qed.
Lemma sign_only cs priv rnd l c sig : signWithLabel cs priv rnd l c = Ok sig -> SignWithLabel cs priv l c rnd sig.
Proof.
  unfold signWithLabel, SignWithLabel. intros H. apply rbind_ok in H as (m & Hm & H). apply rbind_ok in H as (d & Hd & H).
  exists d. rewrite suite_eq. split; [now apply describe_some|]. rewrite <- (writes_labelled _ _ _ Hm).
  unfold sigSign in H. destruct (sd_sig d); [destruct (lenN priv =? 32); [|discriminate]|destruct (lenN priv =? 57); [|discriminate]| | |];
  (destruct (cr_sign C _ priv rnd m); [apply Ok_inj in H; congruence|discriminate]).
Qed.
Lemma encrypt_iff cs pub l c pt rnd ko ct : lenN (enc_labelled l c) < 2 ^ 30 ->
  encryptWithLabel cs pub l c pt rnd = Ok (ko, ct) <-> EncryptWithLabel cs pub l c pt rnd ko ct.
Proof.
  intros Hl. unfold encryptWithLabel, EncryptWithLabel. rewrite (fills_labelled _ _ Hl). cbn [rbind]. rewrite suite_eq.
  unfold describe. destruct (cipherSuiteDescriptions cs) as [d|]; cbn [rbind].
  - destruct (cr_hpkeSeal C _ _ _ _ _ _ _) as [[a b]|] eqn:E; split; intros H.
    + exists d. split; auto. congruence.
    + destruct H as (d' & [= <-] & H). congruence.
    + discriminate.
    + destruct H as (d' & [= <-] & H). congruence.
  - split; [discriminate|]. intros (d & [=] & _).
Qed.
Lemma encrypt_only cs pub l c pt rnd ko ct :
  encryptWithLabel cs pub l c pt rnd = Ok (ko, ct) -> EncryptWithLabel cs pub l c pt rnd ko ct.
Proof.
  unfold encryptWithLabel, EncryptWithLabel. intros H. apply rbind_ok in H as (m & Hm & H). apply rbind_ok in H as (d & Hd & H).
  exists d. rewrite suite_eq. split; [now apply describe_some|]. rewrite <- (writes_labelled _ _ _ Hm).
  destruct (cr_hpkeSeal C _ _ _ _ _ _ _) as [p|]; [|discriminate]. apply Ok_inj in H. congruence.
Qed.
Lemma decrypt_iff cs priv l c ko ct pt : lenN (enc_labelled l c) < 2 ^ 30 ->
  decryptWithLabel cs priv l c ko ct = Ok pt <-> DecryptWithLabel cs priv l c ko ct pt.
Proof.
  intros Hl. unfold decryptWithLabel, DecryptWithLabel. rewrite (fills_labelled _ _ Hl). cbn [rbind]. rewrite suite_eq.
  unfold describe. destruct (cipherSuiteDescriptions cs) as [d|]; cbn [rbind].
  - destruct (cr_hpkeOpen C _ _ _ _ _ _ _) as [a|] eqn:E; split; intros H.
    + exists d. split; auto. apply Ok_inj in H. congruence.
    + destruct H as (d' & [= <-] & H). congruence.
    + discriminate.
    + destruct H as (d' & [= <-] & H). congruence.
  - split; [discriminate|]. intros (d & [=] & _).
Qed.
Lemma decrypt_only cs priv l c ko ct pt :
  decryptWithLabel cs priv l c ko ct = Ok pt -> DecryptWithLabel cs priv l c ko ct pt.
Proof.
  unfold decryptWithLabel, DecryptWithLabel. intros H. apply rbind_ok in H as (m & Hm & H). apply rbind_ok in H as (d & Hd & H).
  exists d. rewrite suite_eq. split; [now apply describe_some|]. rewrite <- (writes_labelled _ _ _ Hm).
  destruct (cr_hpkeOpen C _ _ _ _ _ _ _) as [p|]; [|discriminate]. apply Ok_inj in H. congruence.
Qed.
Lemma verifyMAC_iff cs k m tag : known_suite cs -> verifyMAC cs k m tag = Ok true <-> tag = MAC cs k m.
Proof.
  intros Hk. unfold verifyMAC. rewrite (proj2 (gives_signMAC cs k m) Hk). cbn [rbind]. split.
  - intros H. apply Ok_inj in H. now apply bytes_eqb_true.
  - intros ->. now rewrite bytes_eqb_refl.
Qed.
Lemma verifyMAC_only cs k m tag : verifyMAC cs k m tag = Ok true -> tag = MAC cs k m.
Proof.
  intros H. unfold verifyMAC in H. apply rbind_ok in H as (t & Ht & H). apply (proj1 (gives_signMAC cs k m)) in Ht. subst t.
  apply Ok_inj in H. now apply bytes_eqb_true.
Qed.
Lemma gives_ok_only {A} (r : res A) v P x : gives r v P -> r = Ok x -> x = v.
Proof. intros [H _]. apply H. Qed.
Lemma aeadSeal_sealed cs key nonce aad pt ct : aeadSeal cs key nonce aad pt = Ok ct -> ct = sealed cs key nonce aad pt.
Proof.
  unfold aeadSeal, sealed. intros H. apply rbind_ok in H as (d & Hd & H). rewrite (aeadOf_some _ _ (describe_some _ _ Hd)).
  destruct (negb _) in H; [discriminate|]. destruct (negb _) in H; [discriminate|]. now apply Ok_inj in H.
Qed.
Lemma aeadOpen_opened cs key nonce aad ct pt : aeadOpen cs key nonce aad ct = Ok pt -> opened cs key nonce aad ct = Some pt.
Proof.
  unfold aeadOpen, opened. intros H. apply rbind_ok in H as (d & Hd & H). rewrite (aeadOf_some _ _ (describe_some _ _ Hd)).
  destruct (negb _) in H; [discriminate|]. destruct (negb _) in H; [discriminate|].
  destruct (cr_aeadOpen C _ _ _ _ _); [|discriminate]. apply Ok_inj in H. now subst.
Qed.
Lemma proposalRef_only cs ac ref : generateProposalRef cs ac = Ok ref -> ref = ProposalRef cs ac.
Proof.
  unfold generateProposalRef. destruct (fc_body (ac_content ac)); try discriminate. intros H.
  apply rbind_ok in H as (raw & Hr & H). rewrite (writes_authenticatedContent _ _ Hr) in H.
  exact (gives_ok_only _ _ _ _ (gives_refHash cs _ _) H).
Qed.
Lemma keyPackageRef_only k ref : keyPackageRef k = Ok ref -> ref = KeyPackageRef k.
Proof.
  unfold keyPackageRef. intros H. apply rbind_ok in H as (raw & Hr & H). rewrite (writes_keyPackage _ _ Hr) in H.
  now apply (gives_refHash _ _ _) in H.
Qed.
End WithCrypto.
