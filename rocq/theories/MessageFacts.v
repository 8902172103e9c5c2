(** Facts about private messages, Welcomes and cipher suites. *)
From Verif Require Export GroupFacts.

Lemma supported_iff cs : supported cs = true <-> cs = 1 \/ cs = 2 \/ cs = 3 \/ cs = 7.
Proof.
  split.
  - unfold supported, cipherSuiteDescriptions. intros H.
    destruct cs as [|[[[p|p|]|[p|p|]|]|[[p|p|]|[p|p|]|]|]]; cbn in H; try discriminate; auto 6.
  - intros [->|[->|[->| ->]]]; reflexivity.
Qed.

(** The four PSKs usages that may occur only once *)
Lemma singlePSK_spec s : verifySingleReinitOrBranchPSK s = true <->
  (length (filter (fun id => match id with PskResumption u _ _ _ => ((u =? 2) || (u =? 3))%N | _ => false end) (gs_psks s)) <= 1)%nat.
Proof. unfold verifySingleReinitOrBranchPSK, lenN. rewrite N.leb_le. lia. Qed.

Lemma filter_le1_pairs {A} (f : A -> bool) l :
  (length (filter f l) <= 1)%nat <->
  forall i j a b, nth_error l i = Some a -> nth_error l j = Some b -> f a = true -> f b = true -> i = j.
Proof.
  split.
  - revert f. induction l as [|x l IH]; intros f H i j a b Hi Hj Ha Hb; [destruct i; discriminate|].
    destruct i as [|i], j as [|j]; cbn in Hi, Hj; auto.
    + inversion Hi; subst. cbn in H. rewrite Ha in H. cbn in H. exfalso.
      assert (In b (filter f l)) by (apply filter_In; split; eauto using nth_error_In). destruct (filter f l); cbn in *; [tauto|lia].
    + inversion Hj; subst. cbn in H. rewrite Hb in H. cbn in H. exfalso.
      assert (In a (filter f l)) by (apply filter_In; split; eauto using nth_error_In). destruct (filter f l); cbn in *; [tauto|lia].
    + f_equal. eapply (IH f); eauto. cbn in H. destruct (f x); cbn in H; lia.
  - induction l as [|x l IH]; intros H; cbn; [lia|]. destruct (f x) eqn:E; cbn.
    + destruct (filter f l) as [|y r] eqn:Ef; cbn; [lia|]. exfalso.
      assert (Hin : In y (filter f l)) by (rewrite Ef; cbn; auto). apply filter_In in Hin. destruct Hin as [Hin Hy].
      apply In_nth_error in Hin. destruct Hin as [n Hn]. specialize (H 0%nat (S n) x y eq_refl Hn E Hy). discriminate.
    + apply IH. intros i j a b Hi Hj Ha Hb. specialize (H (S i) (S j) a b Hi Hj Ha Hb). congruence.
Qed.

(** A resumption PSK with usage reinit (2) or branch (3) *)
Definition reinitOrBranch (id : preSharedKeyID) : Prop :=
  exists u gid e nonce, id = PskResumption u gid e nonce /\ (u = 2 \/ u = 3).

Lemma singlePSK_pairs s : verifySingleReinitOrBranchPSK s = true <->
  forall i j a b, nth_error (gs_psks s) i = Some a -> nth_error (gs_psks s) j = Some b ->
                  reinitOrBranch a -> reinitOrBranch b -> i = j.
Proof.
  rewrite singlePSK_spec, filter_le1_pairs.
  assert (R : forall id, match id with PskResumption u _ _ _ => (u =? 2) || (u =? 3) | _ => false end = true <-> reinitOrBranch id).
  { intros [id n|u gid e n]; split.
    - discriminate.
    - intros (u & ? & ? & ? & E & _). discriminate.
    - intros H. apply orb_true_iff in H. rewrite !N.eqb_eq in H. unfold reinitOrBranch. eauto 8.
    - intros (u' & ? & ? & ? & E & H). inversion E; subst. apply orb_true_iff. now rewrite !N.eqb_eq. }
  split; intros H i j a b Hi Hj Ha Hb; apply (H i j a b); auto; now apply R.
Qed.

Section WithCrypto.
Context {C : crypto}.

Lemma welcome_with_psk_refused w kpp now ref s :
  keyPackageRef (kpp_public kpp) = Ok ref -> decryptGroupSecrets w ref (kpp_initKey kpp) = Ok s -> gs_psks s <> [] ->
  exists e, groupFromWelcome w kpp now = Err e.
Proof.
  intros Er Es Hp. unfold groupFromWelcome. rewrite Er. cbn [rbind]. rewrite Es. cbn [rbind].
  destruct (verifySingleReinitOrBranchPSK s); cbn [guard rbind]; [|eexists; reflexivity].
  destruct (N.eqb_spec (lenN (gs_psks s)) 0) as [E|E]; [|eexists; reflexivity].
  exfalso. apply Hp. destruct (gs_psks s); [reflexivity|unfold lenN in E; cbn in E; lia].
Qed.

(** *** Welcomes *)
Lemma encryptSecretsFor_refs cs s egi kps : forall rnds l, encryptSecretsFor cs s egi kps rnds = Ok l ->
  Forall2 (fun k e => keyPackageRef k = Ok (egs_newMember e)) kps l.
Proof.
  induction kps as [|k kps IH]; intros rnds l H; cbn in H; rinv; subst; constructor; cbn; eauto.
Qed.

Lemma finishWelcome_ok g kps h t rs ri rh guard w m : finishWelcome g kps h t rs ri rh guard = Ok (w, m) ->
  Forall2 (fun k r => keyPackageRef k = Ok r) kps (welcomeNewMembers w).
Proof.
  unfold finishWelcome. intros H. rinv. inversion H; subst. unfold welcomeNewMembers. cbn [w_secrets].
  match goal with E : encryptSecretsFor _ _ _ _ _ = Ok _ |- _ => apply encryptSecretsFor_refs in E; revert E end.
  clear. induction 1; cbn; constructor; auto.
Qed.

Lemma welcome_members g kps rs ri rh guard w m :
  snd (createWelcome g kps rs ri rh guard) = Ok (w, m) -> welcomeNewMembers w = map KeyPackageRef kps.
Proof.
  intros H. assert (HF : Forall2 (fun k r => keyPackageRef k = Ok r) kps (welcomeNewMembers w)).
  2:{ clear H. induction HF as [|k r ks rs' Hr _ IH]; [reflexivity|]. cbn [map]. now rewrite IH, (keyPackageRef_only _ _ Hr). }
  revert H.
  unfold createWelcome. destruct kps as [|k kps]; [discriminate|].
  destruct (applyH _ _ _ _) as [[h t]|?|?|]; try discriminate. cbn [snd]. apply finishWelcome_ok.
Qed.

Lemma not_invited w kpp now : (forall ref, keyPackageRef (kpp_public kpp) = Ok ref -> ~ In ref (welcomeNewMembers w)) ->
  rejected (groupFromWelcome w kpp now).
Proof.
  intros H. unfold groupFromWelcome. destruct (keyPackageRef (kpp_public kpp)) as [ref|?|?|]; cbn; auto.
  specialize (H ref eq_refl). unfold decryptGroupSecrets.
  destruct (findSecret w ref) as [sec|] eqn:E; cbn; auto.
  exfalso. apply H. unfold findSecret in E. apply find_some in E. destruct E as [Hin E]. apply bytes_eqb_true in E.
  unfold welcomeNewMembers. apply in_map_iff. eauto.
Qed.

Lemma not_invited_err w kpp now ref : keyPackageRef (kpp_public kpp) = Ok ref -> ~ In ref (welcomeNewMembers w) ->
  exists e, groupFromWelcome w kpp now = Err e.
Proof.
  intros Er H. unfold groupFromWelcome. rewrite Er. cbn. unfold decryptGroupSecrets.
  destruct (findSecret w ref) as [sec|] eqn:E; cbn; eauto.
  exfalso. apply H. unfold findSecret in E. apply find_some in E. destruct E as [Hin E]. apply bytes_eqb_true in E.
  unfold welcomeNewMembers. apply in_map_iff. eauto.
Qed.

Lemma uninvited w kpp now : ~ In (KeyPackageRef (kpp_public kpp)) (welcomeNewMembers w) ->
  (forall g, groupFromWelcome w kpp now <> Ok g) /\
  (wf_keyPackage (kpp_public kpp) -> known_suite (kp_cipherSuite (kpp_public kpp)) -> exists e, groupFromWelcome w kpp now = Err e).
Proof.
  intros H. assert (Hr : forall ref, keyPackageRef (kpp_public kpp) = Ok ref -> exists e, groupFromWelcome w kpp now = Err e).
  { intros ref Hr. assert (E := keyPackageRef_only _ _ Hr). subst. exact (not_invited_err w kpp now _ Hr H). }
  split.
  - intros g Hg. assert (Hg' := Hg). unfold groupFromWelcome in Hg'. apply rbind_ok in Hg' as (ref & Er & _).
    destruct (Hr _ Er) as [e He]. congruence.
  - intros Hw Hs. assert (Hn := keyPackageRef_nc _ Hw Hs). destruct (keyPackageRef (kpp_public kpp)) as [ref|e|?|] eqn:E; try contradiction; [eauto|].
    exists e. unfold groupFromWelcome. rewrite E. reflexivity.
Qed.

(** *** Padding *)
Lemma zero_padding pad : forallb (fun v => b2n v =? 0) pad = true <-> forall b, In b pad -> b = x00.
Proof.
  rewrite forallb_forall. split; intros H b Hb; specialize (H b Hb).
  - apply N.eqb_eq in H. apply b2n_inj. exact H.
  - subst. reflexivity.
Qed.

Lemma padding_zero cs m secret guard key nonce aad c e n :
  derivePrivateMessageKeyAndNonce cs secret guard = Ok (key, nonce) ->
  putPrivateContentAAD (privm_groupID m) (privm_epoch m) (privm_contentType m) (privm_authenticatedData m) = Ok aad ->
  wf_privateMessageContent c -> putPrivateMessageContent c = Ok e -> privm_contentType m = body_type (pmc_body c) ->
  aeadOpen cs key nonce aad (privm_ciphertext m) = Ok (e ++ repeat x00 n) ->
  decryptContent cs m secret guard = Ok c.
Proof.
  intros Hk Ha Hwf He Ht Ho. unfold decryptContent. rewrite Hk. cbn [rbind]. rewrite Ha. cbn [rbind]. rewrite Ho. cbn [rbind].
  rewrite Ht, (privateMessageContent_rt _ _ _ Hwf He). cbn [rbind].
  rewrite (proj2 (zero_padding _)); [reflexivity|]. intros b Hb. now apply repeat_spec in Hb.
Qed.

Lemma padding_nonzero cs m secret guard key nonce aad raw c pad b :
  derivePrivateMessageKeyAndNonce cs secret guard = Ok (key, nonce) ->
  putPrivateContentAAD (privm_groupID m) (privm_epoch m) (privm_contentType m) (privm_authenticatedData m) = Ok aad ->
  aeadOpen cs key nonce aad (privm_ciphertext m) = Ok raw ->
  getPrivateMessageContent (privm_contentType m) raw = (Ok c, pad) -> In b pad -> b <> x00 ->
  exists e, decryptContent cs m secret guard = Err e.
Proof.
  intros Hk Ha Ho Hg Hb Hn. unfold decryptContent. rewrite Hk. cbn [rbind]. rewrite Ha. cbn [rbind]. rewrite Ho. cbn [rbind].
  rewrite Hg. cbn [rbind]. destruct (forallb _ pad) eqn:E; cbn; eauto. exfalso. apply Hn. eapply zero_padding; eauto.
Qed.

Lemma zeros_repeat pad : (forall b, In b pad -> b = x00) -> pad = repeat x00 (length pad).
Proof.
  induction pad as [|b r IH]; intros H; cbn; [reflexivity|]. rewrite (H b) by (cbn; auto). f_equal. apply IH.
  intros x Hx. apply H. cbn; auto.
Qed.

Lemma padding_only_zero cs m secret guard c : decryptContent cs m secret guard = Ok c ->
  In (privm_contentType m) [1; 2; 3] -> good_privateMessageContent c ->
  exists key nonce aad e n,
    derivePrivateMessageKeyAndNonce cs secret guard = Ok (key, nonce) /\
    putPrivateContentAAD (privm_groupID m) (privm_epoch m) (privm_contentType m) (privm_authenticatedData m) = Ok aad /\
    putPrivateMessageContent c = Ok e /\ aeadOpen cs key nonce aad (privm_ciphertext m) = Ok (e ++ repeat x00 n) /\
    privm_contentType m = body_type (pmc_body c).
Proof.
  intros H Hin Hgood. unfold decryptContent in H.
  apply rbind_ok in H. destruct H as ([key nonce] & Hk & H).
  apply rbind_ok in H. destruct H as (aad & Ha & H).
  apply rbind_ok in H. destruct H as (raw & Ho & H).
  destruct (getPrivateMessageContent (privm_contentType m) raw) as [r rest] eqn:Hg.
  apply rbind_ok in H. destruct H as (c' & -> & H). rinv. subst c'. pose proof (proj1 (zero_padding _) E) as Hz.
  apply privateMessageContent_CAN in Hg; auto. destruct Hg as (Ht & _ & Hp). destruct (Hp Hgood) as (e & He & ->).
  exists key, nonce, aad, e, (length rest). splits; auto. rewrite Ho. f_equal. f_equal. now apply zeros_repeat.
Qed.

(** *** Nonces *)
Lemma lxor_inj_l n a b : N.lxor n a = N.lxor n b -> a = b.
Proof.
  intros H. rewrite <- (N.lxor_0_l a), <- (N.lxor_0_l b), <- (N.lxor_nilpotent n), !N.lxor_assoc. now rewrite H.
Qed.
Lemma lxor_byte a b : N.lxor (b2n a) (b2n b) < 256.
Proof.
  pose proof (b2n_lt a) as Ha. pose proof (b2n_lt b) as Hb.
  destruct (N.eq_dec (N.lxor (b2n a) (b2n b)) 0) as [->|Hne]; [reflexivity|].
  apply (N.log2_lt_pow2 _ 8); [lia|].
  eapply N.le_lt_trans; [apply N.log2_lxor|]. apply N.max_lub_lt.
  - destruct (N.eq_dec (b2n a) 0) as [->|]; [reflexivity|]. apply N.log2_lt_pow2; [lia|exact Ha].
  - destruct (N.eq_dec (b2n b) 0) as [->|]; [reflexivity|]. apply N.log2_lt_pow2; [lia|exact Hb].
Qed.

Lemma xorGuard_inj : forall nonce g1 g2 r, xorGuard nonce g1 = Ok r -> xorGuard nonce g2 = Ok r -> length g1 = length g2 -> g1 = g2.
Proof.
  induction nonce as [|n nonce IH]; intros [|a g1] [|b g2] r H1 H2 Hl; cbn in Hl; try discriminate; auto; cbn in H1, H2; try discriminate.
  rinv. subst r. injection H2 as Hb Hv. subst. f_equal; [|eapply IH; eauto].
  apply b2n_inj. apply (f_equal b2n) in Hb. rewrite !b2n_n2b, !N.mod_small in Hb by apply lxor_byte.
  symmetry. now apply lxor_inj_l in Hb.
Qed.

Lemma padding_rejected g raw now m sds sd secret key nonce aad plain c pad b :
  unmarshal getMlsMessage raw = Ok (MPrivate m) ->
  deriveSecret (gc_cipherSuite (gr_context g)) (gr_epochSecret g) (str "sender data") = Ok sds ->
  decryptSenderData (gc_cipherSuite (gr_context g)) m sds = Ok sd ->
  messageSecret g (sd_leafIndex sd) (privm_contentType m) (sd_generation sd) = Ok secret ->
  derivePrivateMessageKeyAndNonce (gc_cipherSuite (gr_context g)) secret (sd_reuseGuard sd) = Ok (key, nonce) ->
  putPrivateContentAAD (privm_groupID m) (privm_epoch m) (privm_contentType m) (privm_authenticatedData m) = Ok aad ->
  aeadOpen (gc_cipherSuite (gr_context g)) key nonce aad (privm_ciphertext m) = Ok plain ->
  getPrivateMessageContent (privm_contentType m) plain = (Ok c, pad) -> In b pad -> b <> x00 ->
  exists e, unmarshalAndProcessMessage g raw now = (g, Err e).
Proof.
  intros Hraw H1 H2 H3 H4 H5 H6 H7 Hin Hb. unfold unmarshalAndProcessMessage. rewrite Hraw.
  unfold processPrivateMessage, openPrivateMessage.
  destruct (bytes_eqb (privm_groupID m) (gc_groupID (gr_context g))); cbn [guard rbind]; [|eexists; reflexivity].
  destruct (N.eqb (privm_epoch m) (gc_epoch (gr_context g))); cbn [guard rbind]; [|eexists; reflexivity].
  change secretLabelSenderData with (str "sender data"). rewrite H1; cbn [rbind]. rewrite H2; cbn [rbind]. rewrite H3; cbn [rbind].
  destruct (padding_nonzero _ _ _ _ _ _ _ _ _ _ _ H4 H5 H6 H7 Hin Hb) as [e He]. rewrite He. cbn. eauto.
Qed.

(** How an application message is sealed *)
Lemma application_sealed g data rnd guard raw : createApplicationMessage g data rnd guard = Ok raw ->
  exists d secret key base nonce aad pt sds m,
    cipherSuiteDescriptions (gc_cipherSuite (gr_context g)) = Some d /\
    messageSecret g (gr_myLeafIndex g) 1 0 = Ok secret /\
    deriveKey (gc_cipherSuite (gr_context g)) secret = Ok key /\
    deriveNonce (gc_cipherSuite (gr_context g)) secret = Ok base /\
    xorGuard base guard = Ok nonce /\
    putMlsMessage (MPrivate m) = Ok raw /\
    privm_ciphertext m = cr_aeadSeal C (sd_aead d) key nonce aad pt /\
    privm_contentType m = 1 /\ privm_epoch m = gc_epoch (gr_context g) /\
    deriveSecret (gc_cipherSuite (gr_context g)) (gr_epochSecret g) (str "sender data") = Ok sds.
Proof.
  unfold createApplicationMessage, groupEncryptPrivateMessage, encryptPrivateMessage, encryptPrivateMessageContent,
    derivePrivateMessageKeyAndNonce. cbn [ownContent fc_body body_type sd_reuseGuard].
  intros H. rinv. injection E6 as -> ->. subst v2. unfold aeadSeal in E3. rinv. apply describe_ok in E2.
  destruct (negb _); [discriminate|]. destruct (negb _); [discriminate|]. apply Ok_inj in E3. subst v3.
  do 9 eexists. splits; eauto; reflexivity.
Qed.

Definition sealed_under (raw key nonce pt : bytes) : Prop :=
  exists m alg aad, unmarshal getMlsMessage raw = Ok (MPrivate m) /\ privm_ciphertext m = cr_aeadSeal C alg key nonce aad pt.

Lemma unmarshal_mls m raw : wf_mlsMessage m -> putMlsMessage m = Ok raw -> unmarshal getMlsMessage raw = Ok m.
Proof.
  intros Hw H. apply (proj2 (unmarshal_ok _ _ _)). pose proof (mlsMessage_RT _ _ [] Hw H) as R. now rewrite app_nil_r in R.
Qed.

Lemma nonces_differ g d1 d2 r1 r2 guard1 guard2 raw1 raw2 :
  u64 (gc_epoch (gr_context g)) ->
  createApplicationMessage g d1 r1 guard1 = Ok raw1 -> createApplicationMessage g d2 r2 guard2 = Ok raw2 ->
  length guard1 = length guard2 -> guard1 <> guard2 ->
  exists key n1 n2 pt1 pt2, sealed_under raw1 key n1 pt1 /\ sealed_under raw2 key n2 pt2 /\ n1 <> n2.
Proof.
  intros He H1 H2 Hl Hn. apply application_sealed in H1, H2.
  destruct H1 as (d & secret & key & base & n1 & aad1 & pt1 & sds & m1 & A1 & A2 & A3 & A4 & A5 & A6 & A7 & A8 & A9 & A10).
  destruct H2 as (d' & secret' & key' & base' & n2 & aad2 & pt2 & sds' & m2 & B1 & B2 & B3 & B4 & B5 & B6 & B7 & B8 & B9 & B10).
  assert (secret' = secret) by congruence. subst. assert (key' = key) by congruence. assert (base' = base) by congruence. subst.
  apply unmarshal_mls in A6, B6.
  2-3: cbn; unfold wf_privateMessage; rewrite ?A9, ?B9, ?A8, ?B8; cbn; auto.
  exists key, n1, n2, pt1, pt2. splits.
  - exists m1, (sd_aead d), aad1. auto.
  - exists m2, (sd_aead d'), aad2. auto.
  - intros E. subst n2. apply Hn. eapply xorGuard_inj; eauto.
Qed.
End WithCrypto.
