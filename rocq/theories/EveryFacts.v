(** What one witness shows of the code happens in every case: key packages
    without their signature, key packages of unknown cipher suites, application
    messages with the same guard, commits with PSK proposals. *)
From Verif Require Import GroupFacts.
From Verif Require Export MessageFacts CrashFacts RfcFacts.

(** A key package without its signature *)
Definition unsigned (k : keyPackage) : keyPackage :=
  mkKeyPackage (kp_version k) (kp_cipherSuite k) (kp_initKey k) (kp_leafNode k) (kp_extensions k) [].

Lemma unsigned_read k e : wf_keyPackage k -> putKeyPackageTBS k = Ok e -> getKeyPackage e = (Ok (unsigned k), []).
Proof.
  destruct k as [v cs ik l ex sig]. unfold putKeyPackageTBS, wf_keyPackage, unsigned.
  cbn [kp_version kp_cipherSuite kp_initKey kp_leafNode kp_extensions kp_signature]. intros Hw He. conj; subst. unwapp.
  unfold getKeyPackage. assert (u16 1) by reflexivity. rewrite <- ?app_assoc. do 3 rt_step. tagb. rt_step.
  rewrite <- (app_nil_r e4). rt_step. reflexivity.
Qed.

Theorem signatures_can_be_cut raw k : unmarshalKeyPackage raw = Ok k -> kp_signature k <> [] ->
  exists cut rest, raw = cut ++ rest /\ rest <> [] /\ unmarshalKeyPackage cut = Ok (unsigned k).
Proof.
  unfold unmarshalKeyPackage. intros H Hs. apply rbind_ok in H. destruct H as (m & Hm & H).
  destruct m as [| | | |k']; try discriminate H. apply Ok_inj in H. subst k'.
  apply unmarshal_ok in Hm. apply mlsMessage_CAN in Hm. destruct Hm as [Wf Hm]. destruct (Hm Hs) as (e & He & E).
  rewrite app_nil_r in E. subst e. unfold putMlsMessage in He. cbn [msg_wireFormat wf_mlsMessage] in *. unfold putKeyPackage in He. unwapp.
  exists (e ++ e1 ++ e0), e3. split; [now rewrite <- ?app_assoc|]. split.
  - intros ->. pose proof (opaque_rt _ _ [] W3) as R. destruct (kp_signature k); [contradiction|]. cbn in R. discriminate.
  - assert (R : getMlsMessage (e ++ e1 ++ e0) = (Ok (MKeyPackage (unsigned k)), [])).
    { unfold getMlsMessage. assert (u16 1) by reflexivity. rt_step. tagb. tag_step. erewrite rd_bind_eq; [|apply unsigned_read; eassumption]. reflexivity. }
    rewrite (proj2 (unmarshal_ok _ _ _) R). reflexivity.
Qed.

Section WithCrypto.
Context {C : crypto}.

Theorem unknown_suites_panic raw k : unmarshalKeyPackage raw = Ok k -> ~ known_suite (kp_cipherSuite k) -> short (enc_keyPackage k) ->
  keyPackageRef k = Panic "mls: invalid cipher suite".
Proof.
  intros H Kn Hz. assert (Wf : wf_keyPackage k).
  { unfold unmarshalKeyPackage in H. apply rbind_ok in H. destruct H as (m & Hm & H). destruct m as [| | | |k']; try discriminate H. apply Ok_inj in H. subst k'.
    apply unmarshal_ok in Hm. apply mlsMessage_CAN in Hm. apply Hm. }
  unfold keyPackageRef. unfold short in Hz. rewrite (fills_keyPackage _ Wf) by lia. cbn [rbind]. unfold refHash.
  rewrite (fills_refHashInput _ _); [|unfold enc_refHashInput; rewrite lenN_app'; pose proof (vec_len_le (str "MLS 1.0 KeyPackage Reference")) as L; pose proof (vec_len_le (enc_keyPackage k)); change (lenN (str "MLS 1.0 KeyPackage Reference")) with 28 in L; lia]. cbn [rbind]. unfold hashSum, describe.
  destruct (cipherSuiteDescriptions (kp_cipherSuite k)) as [d|] eqn:E; [|reflexivity]. destruct Kn. exists d. now rewrite suite_eq.
Qed.

(** The same guard gives the same key and the same nonce. *)
Theorem guards_alone_matter g d1 d2 r1 r2 guard raw1 raw2 : u64 (gc_epoch (gr_context g)) ->
  createApplicationMessage g d1 r1 guard = Ok raw1 -> createApplicationMessage g d2 r2 guard = Ok raw2 ->
  exists key nonce pt1 pt2, sealed_under raw1 key nonce pt1 /\ sealed_under raw2 key nonce pt2.
Proof.
  intros He H1 H2. apply application_sealed in H1, H2.
  destruct H1 as (d & secret & key & base & n1 & aad1 & pt1 & sds & m1 & A1 & A2 & A3 & A4 & A5 & A6 & A7 & A8 & A9 & A10).
  destruct H2 as (d' & secret' & key' & base' & n2 & aad2 & pt2 & sds' & m2 & B1 & B2 & B3 & B4 & B5 & B6 & B7 & B8 & B9 & B10).
  assert (secret' = secret) by congruence. subst. assert (key' = key) by congruence. assert (base' = base) by congruence. subst.
  assert (n2 = n1) by congruence. subst n2. apply unmarshal_mls in A6, B6.
  2-3: cbn; unfold wf_privateMessage; rewrite ?A9, ?B9, ?A8, ?B8; cbn; auto.
  exists key, n1, pt1, pt2. split.
  - exists m1, (sd_aead d), aad1. auto.
  - exists m2, (sd_aead d'), aad2. auto.
Qed.

(** No commit that arrives as a message mixes in a PSK. *)
Theorem commits_mix_in_no_psk g raw now ac c g' : accepts_commit g raw now ac c g' ->
  extractPSKSecret (gc_cipherSuite (gr_context g)) [] [] = Ok (gr_pskSecret g') /\ Forall (fun b => b = x00) (gr_pskSecret g').
Proof.
  intros H. apply accepts_commit_inv in H. destruct H as [_ H]. apply commit_psk in H. destruct H as (s & j & H & -> & _). split; [exact H|].
  unfold extractPSKSecret in H. rinv. cbn [combine pskLoop] in H. apply Ok_inj in H. rewrite <- H. unfold zeros. apply Forall_forall. intros b Hb. now apply repeat_spec in Hb.
Qed.
End WithCrypto.
