(** Joining a group. *)
From Verif Require Export SpecJoin DeliveryFacts HeapFacts TreeOpFacts IntegrityFacts.

(** ** Trees read from the wire *)
Lemma loadFrom_range t : forall p q, In (Some q) (snd (loadFrom p t)) -> (p <= q < p + length (fst (loadFrom p t)))%nat.
Proof.
  induction t as [|[n|] t IH]; intros p q H; cbn in *; [tauto| |].
  - destruct (loadFrom (S p) t) as [h t'] eqn:E. cbn in *. destruct H as [H|H]; [injection H as ->; lia|].
    specialize (IH (S p) q). rewrite E in IH. cbn in IH. specialize (IH H). lia.
  - destruct (loadFrom p t) as [h t'] eqn:E. cbn in *. destruct H as [H|H]; [discriminate|].
    specialize (IH p q). rewrite E in IH. cbn in IH. auto.
Qed.

Lemma loadFrom_apart t : forall p i j q, nth_error (snd (loadFrom p t)) i = Some (Some q) -> nth_error (snd (loadFrom p t)) j = Some (Some q) -> i = j.
Proof.
  induction t as [|[n|] t IH]; intros p i j q Hi Hj; cbn in *.
  - destruct i; discriminate.
  - pose proof (loadFrom_range t (S p)) as R. specialize (IH (S p)).
    destruct (loadFrom (S p) t) as [h t'] eqn:E. cbn in *.
    destruct i as [|i], j as [|j]; cbn in *; auto.
    + injection Hi as <-. apply nth_error_In in Hj. apply R in Hj. lia.
    + injection Hj as <-. apply nth_error_In in Hi. apply R in Hi. lia.
    + f_equal. eapply IH; eauto.
  - specialize (IH p). destruct (loadFrom p t) as [h t'] eqn:E. cbn in *.
    destruct i as [|i], j as [|j]; cbn in *; try discriminate. f_equal. eapply IH; eauto.
Qed.

Lemma loadFrom_value t : forall pre, deref (pre ++ fst (loadFrom (length pre) t)) (snd (loadFrom (length pre) t)) = t.
Proof.
  induction t as [|[n|] t IH]; intros pre; cbn; [reflexivity| |].
  - specialize (IH (pre ++ [n])). rewrite app_length in IH. cbn in IH. replace (length pre + 1)%nat with (S (length pre)) in IH by lia.
    destruct (loadFrom (S (length pre)) t) as [h t'] eqn:E. cbn in *. rewrite <- app_assoc in IH. cbn in IH. rewrite IH. f_equal.
    rewrite nth_error_app2 by lia. now rewrite Nat.sub_diag.
  - specialize (IH pre). destruct (loadFrom (length pre) t) as [h t'] eqn:E. cbn in *. now rewrite IH.
Qed.

Lemma load_value t h p : load t = (h, p) -> deref h p = t /\ proper h p /\ length p = length t.
Proof.
  intros H. unfold load in H. pose proof (loadFrom_value t []) as V. cbn in V. pose proof (loadFrom_range t 0) as R. pose proof (loadFrom_apart t 0) as A.
  rewrite H in *. cbn in *. splits; auto.
  - split; auto. intros q Hq. apply R in Hq. lia.
  - apply (f_equal (@length _)) in V. now rewrite map_length in V.
Qed.

Lemma decoded_tree raw t : unmarshal getRatchetTree raw = Ok t -> t <> [] -> (exists k, full k t) /\ Forall wf_optionalNode t.
Proof.
  intros H Hne. apply unmarshal_ok in H. apply ratchetTree_dec in H.
  destruct H as (l & e & d & _ & _ & Hw & -> & Hl & Hmin & Hlen). split.
  - assert (Hd : d <> 0). { intros ->. cbn in Hl. rewrite lenN_app in Hl. apply Hne. destruct l; [|rewrite lenN_cons' in Hl; lia].
      cbn. cbn in Hl. destruct (N.to_nat _); [reflexivity|]. cbn in Hl. unfold lenN in Hl. cbn in Hl. lia. }
    assert (Hd31 : d <= 30).
    { destruct (N.le_gt_cases d 30) as [|Hgt]; [assumption|]. exfalso. assert (2 ^ 30 < 2 ^ d) as Hp by (apply N.pow_lt_mono_r; lia). specialize (Hmin 30 Hp). lia. }
    exists (N.to_nat (d - 1)). split; [unfold fits; lia|]. unfold node_count. rewrite Nat2N.inj_succ, N2Nat.id. replace (N.succ (d - 1)) with d by lia. lia.
  - apply Forall_app. split; [assumption|]. apply Forall_forall. intros o Ho. apply repeat_spec in Ho. subst. exact I.
Qed.

Lemma wf_nodes_lifetimes t : Forall wf_optionalNode t -> wf_lifetimes t.
Proof.
  intros H li l Hl. unfold leaf_at in Hl. destruct (nth_error t (N.to_nat (2 * li))) as [[[l0|]|]|] eqn:E; try discriminate. injection Hl as ->.
  apply nth_error_In in E. rewrite Forall_forall in H. specialize (H _ E). cbn in H. intros lt Elt.
  destruct H as (_ & _ & _ & [(_ & (lt' & E' & Hw) & _)|[(_ & E' & _)|(_ & E')]]); congruence || (rewrite Elt in E'; injection E' as ->; exact Hw).
Qed.

Lemma findLeaf_some t l me : findLeaf t l = Ok (Some me) ->
  exists l' e, me < numLeaves t /\ getLeaf t me = Ok (Some l') /\ putLeafNode l' = Ok e /\ putLeafNode l = Ok e.
Proof.
  unfold findLeaf. assert (forall lis, (forall x, In x lis -> x < numLeaves t) -> findLeafFrom t l lis = Ok (Some me) ->
    exists l' e, me < numLeaves t /\ getLeaf t me = Ok (Some l') /\ putLeafNode l' = Ok e /\ putLeafNode l = Ok e) as H.
  { induction lis as [|li lis IH]; intros Hin H; cbn in H; [discriminate|].
    apply rbind_ok in H. destruct H as ([n|] & E & H).
    - destruct (bytes_eqb (ln_encryptionKey n) (ln_encryptionKey l)); cbn in H; [|apply IH; auto; intros; apply Hin; now right].
      destruct (putLeafNode l) as [r1|?|?|]; destruct (putLeafNode n) as [r2|?|?|] eqn:E2; try discriminate.
      destruct (bytes_eqb r1 r2) eqn:Eb; [|discriminate]. apply bytes_eqb_true in Eb. assert (li = me) as -> by congruence. subst r2.
      exists n, r1. splits; auto. apply Hin. now left.
    - apply IH; auto. intros; apply Hin; now right. }
  apply H. intros x Hx. unfold upto in Hx. apply in_map_iff in Hx. destruct Hx as (i & <- & Hi). apply in_seq in Hi. lia.
Qed.

Section WithCrypto.
Context {C : crypto}.

Lemma groupFromSecrets_inv w kpp s ro psks now g : groupFromSecrets w kpp s ro psks now = Ok g ->
  exists psk gi raw t signer epoch init interim me priv,
    extractPSKSecret (w_cipherSuite w) (gs_psks s) psks = Ok psk /\
    decryptGroupInfo w (gs_joinerSecret s) psk = Ok gi /\
    match ro with Some r => Some r | None => findExtensionData (gi_extensions gi) 2 end = Some raw /\
    unmarshal getRatchetTree raw = Ok t /\ getLeaf t (gi_signer gi) = Ok (Some signer) /\
    groupInfoVerifySignature gi (ln_signatureKey signer) = Ok true /\
    groupInfoVerifyConfirmationTag gi (gs_joinerSecret s) psk = Ok true /\
    gc_cipherSuite (gi_groupContext gi) = w_cipherSuite w /\
    verifyIntegrity t (gi_groupContext gi) now = Ok tt /\
    extractEpochSecret (gi_groupContext gi) (gs_joinerSecret s) psk = Ok epoch /\
    deriveSecret (gc_cipherSuite (gi_groupContext gi)) epoch secretLabelInit = Ok init /\
    nextInterimTranscriptHash (gc_cipherSuite (gi_groupContext gi)) (gc_confirmedTranscriptHash (gi_groupContext gi)) (gi_confirmationTag gi) = Ok interim /\
    findLeaf t (kp_leafNode (kpp_public kpp)) = Ok (Some me) /\
    g = mkGroup (fst (load t)) (snd (load t)) (gi_groupContext gi) interim psk epoch init me priv (kpp_signatureKey kpp) [] /\
    exists priv0, setN (repeat None (length t)) (nodeIndexOf me) (Some (kpp_encryptionKey kpp)) = Ok priv0 /\
      match gs_pathSecret s with
      | None => Ok priv0
      | Some pathSecret => processPathSecret (gc_cipherSuite (gi_groupContext gi)) t priv0 pathSecret
                             (commonAncestor (nodeIndexOf me) (nodeIndexOf (gi_signer gi)))
      end = Ok priv.
Proof.
  unfold groupFromSecrets. intros H.
  apply rbind_ok in H. destruct H as (psk & Epsk & H). apply rbind_ok in H. destruct H as (gi & Egi & H). cbv zeta in H.
  destruct (match ro with Some r => Some r | None => _ end) as [raw|] eqn:Eraw; [|discriminate].
  apply rbind_ok in H. destruct H as (t & Et & H). apply rbind_ok in H. destruct H as ([signer|] & Es & H); [|discriminate].
  apply rbind_ok in H. destruct H as (sigok & Esig & H). apply rbind_ok in H. destruct H as ([] & G1 & H).
  apply rbind_ok in H. destruct H as (tagok & Etag & H). apply rbind_ok in H. destruct H as ([] & G2 & H).
  apply rbind_ok in H. destruct H as ([] & G3 & H). apply rbind_ok in H. destruct H as ([] & Ev & H).
  apply rbind_ok in H. destruct H as (epoch & Eep & H). apply rbind_ok in H. destruct H as (init & Ein & H).
  apply rbind_ok in H. destruct H as (interim & Eint & H). apply rbind_ok in H. destruct H as ([me|] & Eme & H); [|discriminate].
  apply rbind_ok in H. destruct H as (priv0 & Ep0 & H). apply rbind_ok in H. destruct H as (priv & Ep & H).
  destruct (load t) as [h pt] eqn:El.
  destruct sigok; [|discriminate]. destruct tagok; [|discriminate].
  destruct (gc_cipherSuite (gi_groupContext gi) =? w_cipherSuite w) eqn:Ecs; [|discriminate]. apply N.eqb_eq in Ecs.
  exists psk, gi, raw, t, signer, epoch, init, interim, me, priv. rewrite El. cbn [fst snd].
  splits; auto; try exact Eraw.
  - apply Ok_inj in H. now symmetry.
  - exists priv0. now split.
Qed.

Lemma groupFromWelcome_inv w kpp now g : groupFromWelcome w kpp now = Ok g ->
  exists ref s, keyPackageRef (kpp_public kpp) = Ok ref /\ decryptGroupSecrets w ref (kpp_initKey kpp) = Ok s /\ gs_psks s = [] /\
    groupFromSecrets w kpp s None [] now = Ok g.
Proof.
  unfold groupFromWelcome. intros H. apply rbind_ok in H. destruct H as (ref & E1 & H). apply rbind_ok in H. destruct H as (s & E2 & H).
  apply rbind_ok in H. destruct H as ([] & _ & H). apply rbind_ok in H. destruct H as ([] & G & H).
  exists ref, s. splits; auto. destruct (lenN (gs_psks s) =? 0) eqn:E; [|discriminate]. apply N.eqb_eq in E.
  destruct (gs_psks s); [reflexivity|]. rewrite lenN_cons' in E. lia.
Qed.

Lemma info_signature_verified gi key : groupInfoVerifySignature gi key = Ok true -> info_signed gi key.
Proof.
  unfold groupInfoVerifySignature, info_signed. intros H. now apply (put_verify _ _ _ _ _ _ (writes_groupInfoTBS gi)) in H as [_ H].
Qed.

Lemma confirmation_verified gi joiner psk epoch : groupInfoVerifyConfirmationTag gi joiner psk = Ok true ->
  extractEpochSecret (gi_groupContext gi) joiner psk = Ok epoch -> gi_confirmationTag gi = confirmation_tag (gi_groupContext gi) epoch.
Proof.
  unfold groupInfoVerifyConfirmationTag. intros H He. cbv zeta in H. apply (proj1 (falseOnErr_true _)) in H. rewrite He in H. cbn [rbind] in H.
  apply rbind_ok in H. destruct H as (key & Hk & H). apply verifyMAC_only in H. apply (gives_deriveSecret _ _ _) in Hk. now subst key.
Qed.

Lemma processPathSecretLoop_len fuel cs t : forall priv ps x priv', processPathSecretLoop fuel cs t priv ps x = Ok priv' -> lenN priv' = lenN priv.
Proof.
  induction fuel as [|fuel IH]; intros priv ps x priv' H; cbn in H; destruct (parent (numLeaves t) x) as [x'|]; try (apply Ok_inj in H; now subst);
    apply rbind_ok in H; destruct H as (ps' & _ & H); apply rbind_ok in H; destruct H as ([n|] & _ & H); try discriminate;
    apply rbind_ok in H; destruct H as (np & _ & H); apply rbind_ok in H; destruct H as (p1 & E & H); try discriminate.
  apply IH in H. apply setN_len in E. congruence.
Qed.
Lemma processPathSecret_len cs t priv ps x priv' : processPathSecret cs t priv ps x = Ok priv' -> lenN priv' = lenN priv.
Proof.
  intros H. apply rbind_ok in H; destruct H as ([n|] & _ & H); try discriminate.
  apply rbind_ok in H; destruct H as (np & _ & H); apply rbind_ok in H; destruct H as (p1 & E & H).
  apply processPathSecretLoop_len in H. apply setN_len in E. congruence.
Qed.

Lemma welcomeKeyNonce_rfc cs j psk key nonce : welcomeKeyNonce cs j psk = Ok (key, nonce) ->
  key = welcome_key cs (welcome_secret cs j psk) /\ nonce = welcome_nonce cs (welcome_secret cs j psk).
Proof.
  unfold welcomeKeyNonce. intros H. apply rbind_ok in H as (s & Hs & H). apply (gives_welcome _ _ _) in Hs. subst s.
  apply rbind_ok in H as (nn & Hnn & H). apply (gives_nonceSize _) in Hnn. subst nn.
  apply rbind_ok in H as (nonce' & Hn & H). apply (gives_expand _ _ _ _ _) in Hn.
  apply rbind_ok in H as (nk & Hnk & H). apply (gives_keySize _) in Hnk. subst nk.
  apply rbind_ok in H as (key' & Hk & H). apply (gives_expand _ _ _ _ _) in Hk. apply Ok_inj in H. apply pair_equal_spec in H as [<- <-]. auto.
Qed.
Lemma let_in_holds (w : welcome) (kpp : keyPairPackage) ref s psk gi epoch init interim g :
  keyPackageRef (kpp_public kpp) = Ok ref -> decryptGroupSecrets w ref (kpp_initKey kpp) = Ok s -> gs_psks s = [] ->
  extractPSKSecret (w_cipherSuite w) (gs_psks s) [] = Ok psk -> decryptGroupInfo w (gs_joinerSecret s) psk = Ok gi ->
  gc_cipherSuite (gi_groupContext gi) = w_cipherSuite w ->
  extractEpochSecret (gi_groupContext gi) (gs_joinerSecret s) psk = Ok epoch ->
  deriveSecret (gc_cipherSuite (gi_groupContext gi)) epoch secretLabelInit = Ok init ->
  nextInterimTranscriptHash (gc_cipherSuite (gi_groupContext gi)) (gc_confirmedTranscriptHash (gi_groupContext gi)) (gi_confirmationTag gi) = Ok interim ->
  gr_context g = gi_groupContext gi -> gr_pskSecret g = psk -> gr_epochSecret g = epoch -> gr_initSecret g = init -> gr_interimTranscriptHash g = interim ->
  let_in w kpp g gi.
Proof.
  intros Er Es Ep Epsk Egi Ecs Eep Ein Eint H1 H2 H3 H4 H5. unfold decryptGroupSecrets in Es.
  destruct (findSecret w ref) as [sec|] eqn:Ef; [|discriminate]. unfold findSecret in Ef. apply find_some in Ef as [Hin Hr]. apply bytes_eqb_true in Hr.
  apply rbind_ok in Es as (raw & Hd & Es). apply decrypt_only in Hd. apply unmarshal_ok in Es. apply groupSecrets_CANT in Es as (_ & e & He & ->).
  rewrite app_nil_r in Hd. rewrite (writes_groupSecrets _ _ He) in Hd. apply keyPackageRef_only in Er.
  unfold decryptGroupInfo in Egi. apply rbind_ok in Egi as ([key nonce] & Hk & Egi). apply welcomeKeyNonce_rfc in Hk as [-> ->].
  apply rbind_ok in Egi as (info & Hi & Egi). apply aeadOpen_opened in Hi. apply unmarshal_ok in Egi. apply groupInfo_CAN in Egi as [_ Hg].
  rewrite Ep in Epsk. apply (gives_pskSecret _ [] [] eq_refl) in Epsk. apply (gives_epoch _ _ _) in Eep. apply (gives_deriveSecret _ _ _) in Ein. apply (gives_interim _ _ _) in Eint.
  exists sec, s, info. rewrite H1, H2, H3, H4, H5. splits; auto.
  - congruence.
  - intros Hs. destruct (Hg Hs) as (e' & He' & Ei). rewrite app_nil_r in Ei. rewrite Ei. exact (writes_groupInfo _ _ He').
  - now rewrite <- Ecs.
  - now rewrite <- Ecs.
Qed.

Theorem joined w kpp now g : later_than_1970 now -> groupFromWelcome w kpp now = Ok g ->
  exists gi k signer, let_in w kpp g gi /\
    leaf_at (gr_value g) (designated (gi_signer gi)) = Some signer /\ info_signed gi (ln_signatureKey signer) /\
    gi_confirmationTag gi = confirmation_tag (gr_context g) (gr_epochSecret g) /\
    shaped k (gr_value g) /\ integrity_but_credentials k (gr_value g) (gr_context g) now /\
    (lists_once (gr_value g) -> integrity k (gr_value g) (gr_context g) now) /\
    own_leaf_is g (kp_leafNode (kpp_public kpp)) /\ consistent g /\ gr_pending g = [].
Proof.
  intros Hnow H. apply groupFromWelcome_inv in H. destruct H as (ref & s & Eref & Es & Epsks & H).
  apply groupFromSecrets_inv in H.
  destruct H as (psk & gi & raw & t & signer & epoch & init & interim & me & priv & Epsk & Egi & Eraw & Et & Esg & Esig & Etag & Ecs & Ev & Eep & Ein & Eint & Eme & -> & priv0 & Ep0 & Ep).
  destruct (load t) as [h pt] eqn:El. destruct (load_value t h pt El) as (V & P & L). cbn [fst snd].
  assert (Hne : t <> []). { intros ->. apply getLeaf_some in Esg. destruct (N.to_nat _); discriminate. }
  destruct (decoded_tree raw t Et Hne) as ((k & F) & Hwf). pose proof (wf_nodes_lifetimes t Hwf) as Hlt.
  destruct (verifyIntegrity_full_most k t _ now F Hlt Hnow Ev) as (Sh & Hi).
  exists gi, k, signer. unfold gr_value, own_leaf_is, consistent, gr_value.
  cbn [gr_heap gr_tree gr_context gr_pskSecret gr_epochSecret gr_myLeafIndex gr_privTree gr_pending]. rewrite V. splits; auto.
  - eapply let_in_holds; eauto.
  - apply getLeaf_some in Esg. unfold leaf_at. rewrite nodeIndexOf_designated in Esg. now rewrite Esg.
  - now apply info_signature_verified.
  - eapply confirmation_verified; eauto.
  - intros Ho. now apply (verifyIntegrity_full_sound k t _ now F Hlt Hnow Ho).
  - apply findLeaf_some in Eme. destruct Eme as (l' & e & Hme & Hg & E1 & E2). exists l'. split; [|now rewrite <- (writes_leafNode _ _ E1), <- (writes_leafNode _ _ E2)].
    apply getLeaf_some in Hg. unfold leaf_at. rewrite (nodeIndexOf_leaf k) in Hg; [now rewrite Hg|now apply F|]. destruct F as [F1 F2]. now rewrite (numLeaves_tree t k F1 F2) in Hme.
  - rewrite L. apply setN_len in Ep0. unfold lenN in Ep0. rewrite repeat_length in Ep0.
    destruct (gs_pathSecret s); [apply processPathSecret_len in Ep; unfold lenN in Ep|apply Ok_inj in Ep; subst]; lia.
Qed.
End WithCrypto.
