(** Generated key packages *)
From Coq Require Import Lia.
From Verif Require Export SpecKeyPackage AgreementFacts IntegrityFacts.

Lemma timeUnix_64 t : timeUnix t < 2 ^ 64.
Proof.
  unfold timeUnix. pose proof (Z.mod_pos_bound (t_sec t - unixToInternal) (2 ^ 64) ltac:(lia)).
  apply N2Z.inj_lt. rewrite Z2N.id by lia. change (Z.of_N (2 ^ 64)) with (2 ^ 64)%Z. lia.
Qed.

Section WithCrypto.
Context {C : crypto}.

Lemma generated_inv cs cred t0 t1 r1 r2 r3 r4 r5 kpp : generateKeyPairPackage cs cred t0 t1 r1 r2 r3 r4 r5 = Ok kpp ->
  exists d ip iv ep ev sp sv tbs s1 tbs2 s2,
    cipherSuiteDescriptions cs = Some d /\
    cr_generateKeyPair C (sd_kem d) r1 = (ip, iv) /\ cr_generateKeyPair C (sd_kem d) r2 = (ep, ev) /\ cr_sigKeyPair C (sd_sig d) r3 = (sp, sv) /\
    let leaf s := mkLeafNode ep sp cred (mkCapabilities [1] [cs] [2] [1; 2; 3] [1]) 1
                    (Some (newLifetime t0 (timeAdd t1 (30 * 24 * 3600 * 1000000000)))) [] [] s in
    let pkg s := mkKeyPackage 1 cs ip (leaf s1) [] s in
    putLeafNodeTBS (leaf []) [] 0 = Ok tbs /\ signWithLabel cs sv r4 (str "LeafNodeTBS") tbs = Ok s1 /\
    putKeyPackageTBS (pkg []) = Ok tbs2 /\ signWithLabel cs sv r5 (str "KeyPackageTBS") tbs2 = Ok s2 /\
    kpp = mkKeyPairPackage (pkg s2) iv ev sv.
Proof.
  unfold generateKeyPairPackage. intros H.
  apply rbind_ok in H. destruct H as ([ip iv] & E1 & H). apply rbind_ok in H. destruct H as ([ep ev] & E2 & H).
  apply rbind_ok in H. destruct H as ([sp sv] & E3 & H). cbv zeta in H.
  apply rbind_ok in H. destruct H as (leaf' & E4 & H). apply rbind_ok in H. destruct H as (pkg & E5 & H).
  unfold generateEncryptionKeyPair, generateSignatureKeyPair in *.
  apply rbind_ok in E1. destruct E1 as (d & Ed & E1). rewrite Ed in E2, E3. cbn [rbind] in E2, E3. apply describe_ok in Ed.
  apply Ok_inj in E1, E2, E3, H. subst kpp.
  unfold leafNodeSign in E4. apply rbind_ok in E4. destruct E4 as (tbs & Et & E4). apply rbind_ok in E4. destruct E4 as (s1 & Es1 & E4). apply Ok_inj in E4. cbn in E4. subst leaf'.
  unfold keyPackageSign in E5. apply rbind_ok in E5. destruct E5 as (tbs2 & Et2 & E5). apply rbind_ok in E5. destruct E5 as (s2 & Es2 & E5). apply Ok_inj in E5. cbn in E5. subst pkg.
  exists d, ip, iv, ep, ev, sp, sv, tbs, s1, tbs2, s2. splits; auto.
Qed.

Theorem generated_valid cs cred t0 t1 r1 r2 r3 r4 r5 kpp : crypto_ok C -> u16 cs -> wf_credential cred ->
  generateKeyPairPackage cs cred t0 t1 r1 r2 r3 r4 r5 = Ok kpp ->
  let k := kpp_public kpp in
  wf_keyPackage k /\ kp_cipherSuite k = cs /\ ln_credential (kp_leafNode k) = cred /\ kp_extensions k = [] /\
  ln_extensions (kp_leafNode k) = [] /\ caps_credentials (ln_capabilities (kp_leafNode k)) = [1] /\
  holds_private_keys kpp /\ leaf_signed_anywhere cs (kp_leafNode k) /\
  (ln_encryptionKey (kp_leafNode k) <> kp_initKey k -> forall ctx, gc_version ctx = 1 -> gc_cipherSuite ctx = cs -> addable ctx k) /\
  (lenN (kp_signature k) < 2 ^ 30 -> exists raw, keyPackageBytes k = Ok raw) /\
  (forall raw, keyPackageBytes k = Ok raw -> unmarshalKeyPackage raw = Ok k).
Proof.
  intros HC Hcs Hcr H. apply generated_inv in H.
  destruct H as (d & ip & iv & ep & ev & sp & sv & tbs & s1 & tbs2 & s2 & Hd & E1 & E2 & E3 & E4 & E5 & E6 & E7 & ->). cbn [kpp_public].
  cbv zeta in *. set (l := mkLeafNode ep sp cred _ _ _ _ _ s1) in *. set (k := mkKeyPackage 1 cs ip l [] s2) in *.
  pose proof (ok_generate C HC (sd_kem d) r1) as P1. rewrite E1 in P1. cbn in P1.
  pose proof (ok_generate C HC (sd_kem d) r2) as P2. rewrite E2 in P2. cbn in P2.
  pose proof (ok_sigKey C HC (sd_sig d) r3) as P3. rewrite E3 in P3. cbn in P3.
  assert (W : wf_keyPackage k).
  { subst k l. unfold wf_keyPackage. cbn [kp_version kp_cipherSuite kp_leafNode kp_extensions]. splits; auto. unfold wf_leafNode. cbn [ln_credential ln_capabilities ln_extensions ln_source ln_lifetime ln_parentHash]. splits; auto.
    - unfold wf_capabilities. cbn [caps_versions caps_cipherSuites caps_extensions caps_proposals caps_credentials]. splits; repeat constructor; auto.
    - left. splits; auto. eexists. split; [reflexivity|]. split; apply timeUnix_64. }
  change (putKeyPackageTBS (mkKeyPackage 1 cs ip l [] [])) with (putKeyPackageTBS k) in E6.
  splits; auto; try reflexivity.
  - exists d. subst k l. cbn. splits; auto.
  - intros gid li. apply leafNodeVerifySignature_spec. unfold leafNodeVerifySignature.
    change (kp_leafNode k) with l. replace (putLeafNodeTBS l gid li) with (Ok tbs : res bytes) by (symmetry; exact E4). eapply signed_verifies; eauto.
  - intros Hk ctx Hv Hc. unfold addable. pose proof (signed_verifies _ _ _ _ _ _ _ _ Hd P3 E7) as V.
    assert (S : keyPackageVerifySignature k = Ok true) by (unfold keyPackageVerifySignature; rewrite E6; exact V).
    apply keyPackageVerifySignature_spec in S as [S1 S2]. splits; auto.
  - intros Hs. destruct (writeOpaqueVec_bound _ Hs) as (e & _ & He). unfold keyPackageBytes.
    assert (E : exists e', putKeyPackage k = Ok e'). { unfold putKeyPackage. rewrite E6, He. cbn. eauto. }
    destruct E as (e' & E). unfold putMlsMessage. rewrite E. cbn. eauto.
  - intros raw. now apply unmarshalKeyPackage_Bytes.
Qed.

Theorem generated_current cs cred t0 t1 r1 r2 r3 r4 r5 kpp now : 
  generateKeyPairPackage cs cred t0 t1 r1 r2 r3 r4 r5 = Ok kpp ->
  later_than_1970 t0 -> later_than_1970 t1 -> (nanos t0 <= nanos t1 <= nanos t0 + 59 * 24 * 3600 * 1000000000)%Z -> (t_sec t1 < 2 ^ 62)%Z ->
  within_thirty_days t0 t1 now ->
  exists lt, ln_lifetime (kp_leafNode (kpp_public kpp)) = Some lt /\ current lt now /\ ends_in_time lt.
Proof.
  intros H L0 L1 Ht Hb Hw. apply generated_inv in H.
  destruct H as (d & ip & iv & ep & ev & sp & sv & tbs & s1 & tbs2 & s2 & Hd & E1 & E2 & E3 & E4 & E5 & E6 & E7 & ->). cbn [kpp_public kp_leafNode ln_lifetime].
  eexists. split; [reflexivity|].
  destruct L0 as [[A0 B0] C0], L1 as [[A1 B1] C1]. unfold within_thirty_days, nanos, unixToInternal, ninetyDays in *.
  assert (N0 : Z.of_N (timeUnix t0) = (t_sec t0 - 62135596800)%Z).
  { unfold timeUnix, unixToInternal. rewrite Z.mod_small by lia. rewrite Z2N.id by lia. reflexivity. }
  assert (TA : timeAdd t1 (30 * 24 * 3600 * 1000000000) = mkTime (t_sec t1 + 2592000) (t_nsec t1)).
  { unfold timeAdd. change (Z.quot (30 * 24 * 3600 * 1000000000) 1000000000) with 2592000%Z. change (Z.rem (30 * 24 * 3600 * 1000000000) 1000000000) with 0%Z.
    rewrite Z.add_0_r. cbv zeta. rewrite Z.geb_leb. destruct (Z.leb_spec 1000000000 (t_nsec t1)); [lia|]. destruct (Z.ltb_spec (t_nsec t1) 0); [lia|].
    rewrite addSec_spec by lia. destruct (Z.ltb_spec (t_sec t1 + 2592000) (2 ^ 63)); [reflexivity|lia]. }
  rewrite TA. assert (N1 : Z.of_N (timeUnix (mkTime (t_sec t1 + 2592000) (t_nsec t1))) = (t_sec t1 + 2592000 - 62135596800)%Z).
  { unfold timeUnix, unixToInternal. cbn [t_sec]. rewrite Z.mod_small by lia. rewrite Z2N.id by lia. reflexivity. }
  unfold current, ends_in_time, newLifetime, nanos, unixToInternal, ninetyDays. cbn [lt_notBefore lt_notAfter]. rewrite N0, N1. lia.
Qed.
End WithCrypto.
