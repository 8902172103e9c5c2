(** Which Welcomes are accepted: C113. *)
From Verif Require Export InviteFacts SpecExactJoin.

Lemma findSecret_iff w ref sec : findSecret w ref = Some sec <->
  exists before after, w_secrets w = before ++ sec :: after /\ (forall x, In x before -> egs_newMember x <> ref) /\ egs_newMember sec = ref.
Proof.
  unfold findSecret. induction (w_secrets w) as [|x l IH]; cbn [find].
  - split; [discriminate|]. intros (b & a & E & _). destruct b; discriminate.
  - destruct (bytes_eqb (egs_newMember x) ref) eqn:E.
    + apply bytes_eqb_true in E. split.
      * intros [= <-]. exists [], l. split; [reflexivity|split; [intros y []|assumption]].
      * intros (b & a & Eq & Hb & Hr). destruct b as [|y b]; injection Eq as -> ->; [reflexivity|]. exfalso. exact (Hb y (or_introl eq_refl) E).
    + assert (Hx : egs_newMember x <> ref) by (intros X; apply bytes_eqb_true in X; congruence). rewrite IH. split.
      * intros (b & a & -> & Hb & Hr). exists (x :: b), a. splits; auto. intros y [<-|Hy]; auto.
      * intros (b & a & Eq & Hb & Hr). destruct b as [|y b]; injection Eq as -> ->; [contradiction|]. exists b, a. splits; auto. intros z Hz. apply Hb. now right.
Qed.
Lemma findExtension_iff l raw : findExtensionData l 2 = Some raw <->
  exists before after, l = before ++ mkExtension 2 raw :: after /\ forall e, In e before -> ext_type e <> 2.
Proof.
  induction l as [|x l IH]; cbn [findExtensionData].
  - split; [discriminate|]. intros (b & a & E & _). destruct b; discriminate.
  - destruct (N.eqb_spec (ext_type x) 2) as [E|E].
    + split.
      * intros [= <-]. exists [], l. split; [|intros y []]. destruct x as [ty d]. cbn in *. now subst.
      * intros (b & a & Eq & Hb). destruct b as [|y b]; injection Eq as -> ->; [reflexivity|]. exfalso. exact (Hb y (or_introl eq_refl) E).
    + rewrite IH. split.
      * intros (b & a & -> & Hb). exists (x :: b), a. split; auto. intros y [<-|Hy]; auto.
      * intros (b & a & Eq & Hb). destruct b as [|y b]; injection Eq as -> ->; [cbn in E; congruence|]. exists b, a. split; auto. intros z Hz. apply Hb. now right.
Qed.
Lemma holds_tree_iff gi t : holds_tree gi t <-> exists raw, findExtensionData (gi_extensions gi) 2 = Some raw /\ unmarshal getRatchetTree raw = Ok t.
Proof.
  split.
  - intros (b & raw & a & E & Hb & H). exists raw. split; [|assumption]. apply findExtension_iff. eauto.
  - intros (raw & E & H). apply findExtension_iff in E. destruct E as (b & a & E & Hb). exists b, raw, a. auto.
Qed.
Lemma decoded_encodable raw t : unmarshal getRatchetTree raw = Ok t -> encodable t.
Proof.
  intros H n Hn. apply unmarshal_ok in H. apply ratchetTree_dec in H. destruct H as (l & e & d & He & _ & _ & -> & _).
  apply in_app_iff in Hn. destruct Hn as [Hn|Hn]; [|apply repeat_spec in Hn; discriminate].
  unfold writeVector in He. destruct (writeAll putOptionalNode l) as [b| | |] eqn:E; try discriminate.
  destruct (writeAll_each _ _ _ E _ Hn) as (c & Hc). cbn in Hc. destruct (putNode n) as [r| | |]; try discriminate. eauto.
Qed.
Lemma meet_unique k x y a b : meet_at k x y a -> meet_at k x y b -> a = b.
Proof.
  intros (A1 & A2 & A3) (B1 & B2 & B3). destruct (A3 _ B1 B2) as (s & ->). destruct (B3 _ A1 A2) as (s' & E).
  rewrite <- app_assoc in E. rewrite <- (app_nil_r b) in E at 1. apply app_inv_head in E. destruct s; [now rewrite app_nil_r|]. destruct s'; discriminate.
Qed.
Lemma meet_in k x y a : meet_at k x y a -> in_tree k a.
Proof. intros ((s & E) & _). pose proof (leafPath_in k x) as H. rewrite E in H. unfold in_tree in *. rewrite app_length in H. lia. Qed.

Section WithCrypto.
Context {C : crypto}.

Lemma secrets_opened w kpp s : decryptGroupSecrets w (KeyPackageRef (kpp_public kpp)) (kpp_initKey kpp) = Ok s -> opens_secrets w kpp s.
Proof.
  unfold decryptGroupSecrets. intros H. destruct (findSecret w _) as [sec|] eqn:Ef; [|discriminate]. apply findSecret_iff in Ef. destruct Ef as (b & a & E & Hb & Hr).
  apply rbind_ok in H as (raw & Hd & H). apply decrypt_only in Hd. apply unmarshal_ok in H. apply groupSecrets_CANT in H as (_ & e & He & ->).
  rewrite app_nil_r, (writes_groupSecrets _ _ He) in Hd. exists b, sec, a. auto.
Qed.
Lemma secrets_open w kpp s : short (w_encryptedGroupInfo w) -> wf_groupSecrets s -> short (enc_groupSecrets s) -> opens_secrets w kpp s ->
  decryptGroupSecrets w (KeyPackageRef (kpp_public kpp)) (kpp_initKey kpp) = Ok s.
Proof.
  intros Hs Hw Hl (b & sec & a & E & Hb & Hr & Hd). unfold decryptGroupSecrets.
  rewrite (proj2 (findSecret_iff w _ sec)) by eauto. apply decrypt_iff in Hd; [|apply labelled_short; [unfold short; vm_compute; reflexivity|exact Hs]].
  rewrite Hd. cbn [rbind]. apply unmarshal_ok. rewrite <- (app_nil_r (enc_groupSecrets s)). apply groupSecrets_RT; [assumption|].
  apply fills_groupSecrets. now apply short_fits.
Qed.

Lemma opens_info_iff w s gi : crypto_ok C -> known_suite (w_cipherSuite w) ->
  decryptGroupInfo w (gs_joinerSecret s) (psk_secret (w_cipherSuite w) []) = Ok gi <-> opens_info w s gi.
Proof.
  intros OK Kn. unfold decryptGroupInfo, opens_info. set (cs := w_cipherSuite w) in *. set (psk := psk_secret cs []) in *. cbv zeta. split.
  - intros H. apply rbind_ok in H as ([key nonce] & Hk & H). apply welcomeKeyNonce_rfc in Hk as [-> ->].
    apply rbind_ok in H as (info & Hi & H). apply aeadOpen_opened in Hi. eauto.
  - intros (info & Hi & H). set (j := gs_joinerSecret s) in *. unfold welcomeKeyNonce.
    rewrite (proj2 (gives_welcome cs j psk) Kn). cbn [rbind]. rewrite (proj2 (gives_nonceSize cs) Kn). cbn [rbind].
    rewrite (proj2 (gives_expand_short cs (welcome_secret cs j psk) (str "nonce") [] (nonceSize cs))) by (splits; solve [exact Kn | apply nonceSize_ok | apply keySize_ok | unfold short; vm_compute; reflexivity]). cbn [rbind].
    rewrite (proj2 (gives_keySize cs) Kn). cbn [rbind].
    rewrite (proj2 (gives_expand_short cs (welcome_secret cs j psk) (str "key") [] (keySize cs))) by (splits; solve [exact Kn | apply nonceSize_ok | apply keySize_ok | unfold short; vm_compute; reflexivity]). cbn [rbind].
    rewrite (opens_sealed cs _ _ [] _ info); [exact H|exact Kn| | |exact Hi]; unfold ExpandWithLabel; apply (ok_expand C OK).
Qed.

(** The keys from the path secret *)
Lemma loop_iff cs k t : shaped k t -> known_suite cs -> forall a f priv s, in_tree k a -> full k priv -> (length a <= f)%nat ->
  (exists priv', processPathSecretLoop f cs t priv s (number k a) = Ok priv') <->
  forall p, above p a -> exists n key, at_path k t p = Some n /\ node_keys cs (DeriveSecret cs s (str "path")) (node_encryptionKey n) key.
Proof.
  intros Sh Kn. pose proof (shaped_full _ _ Sh) as F. destruct F as [Hk Ht].
  assert (Hd : forall s, deriveSecret cs s (str "path") = Ok (DeriveSecret cs s (str "path"))).
  { intros s. apply gives_deriveSecret. split; [exact Kn|unfold short; vm_compute; reflexivity]. }
  induction a as [|b q IH] using rev_ind; intros f priv s Ha Fp Hf; rewrite loop_step, (numLeaves_tree t k Hk Ht).
  - rewrite (path_parent_root k Hk). split; [|eauto]. intros _ p (c & r & E). destruct p; discriminate.
  - apply in_tree_snoc in Ha. rewrite (path_parent k Hk q b Ha), Hd. cbn [rbind]. assert (Hq : in_tree k q) by (unfold in_tree; lia).
    rewrite (at_path_getN k) by (auto; apply Sh). cbn [rbind]. rewrite app_length in Hf. cbn [length] in Hf.
    destruct f as [|f]; [lia|].
    assert (Hab : above q (q ++ [b])) by (exists b, []; reflexivity).
    split.
    + intros (priv' & H). destruct (at_path k t q) as [n|] eqn:En; [|discriminate].
      apply rbind_ok in H. destruct H as (key & Ek & H). apply rbind_ok in H. destruct H as (priv1 & Ep & H).
      apply (set_path_inv k) in Ep; auto. destruct Ep as (F1 & _).
      assert (X : exists p', processPathSecretLoop f cs t priv1 s (number k q) = Ok p') by eauto. pose proof (proj1 (IH f priv1 s Hq F1 ltac:(lia)) X) as Y.
      intros y Hy. destruct (path_eq_dec y q) as [->|Hne]; [exists n, key; split; [assumption|now apply nodePriv_iff]|]. apply Y.
      destruct Hy as (c & r & E). destruct r as [|d r _] using rev_ind.
      * apply app_inj_tail in E. destruct E as [E _]. congruence.
      * change (c :: r ++ [d]) with ((c :: r) ++ [d]) in E. rewrite app_assoc in E. apply app_inj_tail in E. destruct E as [E _]. exists c, r. exact E.
    + intros H. destruct (H q Hab) as (n & key & En & Ek). rewrite En, (proj2 (nodePriv_iff _ _ _ _) Ek). cbn [rbind].
      destruct (set_path k priv q (Some key) Fp Hq) as (priv1 & -> & F1 & _). cbn [rbind]. apply (proj2 (IH f priv1 s Hq F1 ltac:(lia))).
      intros p Hp. apply H. eapply above_trans; [exact Hp|exact Hab].
Qed.
Lemma path_iff cs k t priv s a : shaped k t -> known_suite cs -> in_tree k a -> full k priv ->
  (exists priv', processPathSecret cs t priv s (number k a) = Ok priv') <-> keyed_above cs k t a s.
Proof.
  intros Sh Kn Ha Fp. pose proof (shaped_full _ _ Sh) as F. assert (Hf : (length a <= 33)%nat) by (destruct F as [F _]; unfold fits, in_tree in *; lia).
  unfold processPathSecret, keyed_above. rewrite (at_path_getN k) by auto. cbn [rbind]. split.
  - intros (priv' & H). destruct (at_path k t a) as [n|] eqn:En; [|discriminate].
    apply rbind_ok in H. destruct H as (key & Ek & H). apply rbind_ok in H. destruct H as (priv1 & Ep & H).
    apply (set_path_inv k) in Ep; auto. destruct Ep as (F1 & _). split; [exists n, key; split; [reflexivity|now apply nodePriv_iff]|].
    apply (proj1 (loop_iff cs k t Sh Kn a 33 priv1 s Ha F1 Hf)). eauto.
  - intros [(n & key & -> & Ek) H]. rewrite (proj2 (nodePriv_iff _ _ _ _) Ek). cbn [rbind].
    destruct (set_path k priv a (Some key) Fp Ha) as (priv1 & -> & F1 & _). cbn [rbind]. exact (proj2 (loop_iff cs k t Sh Kn a 33 priv1 s Ha F1 Hf) H).
Qed.

Lemma leaf_parts kp : wf_keyPackage kp -> short (enc_keyPackage kp) -> exists e, putLeafNode (kp_leafNode kp) = Ok e.
Proof.
  intros Hw Hs. exists (enc_leafNode (kp_leafNode kp)). apply fills_leafNode; [apply Hw|]. unfold short, enc_keyPackage, enc_keyPackageTBS in Hs. rewrite !lenN_app in Hs. lia.
Qed.
Lemma meets k t me l gi signer : shaped k t -> leaf_at t me = Some l -> getLeaf t (gi_signer gi) = Ok (Some signer) ->
  exists a, in_tree k a /\ meet_at k me (designated (gi_signer gi)) a /\ commonAncestor (nodeIndexOf me) (nodeIndexOf (gi_signer gi)) = number k a.
Proof.
  intros Sh Hme Esg. pose proof (shaped_full _ _ Sh) as F. assert (Hm : me < leaf_count k) by (apply (member_in_array k t); [assumption|congruence]).
  assert (Hsg : designated (gi_signer gi) < leaf_count k).
  { apply getLeaf_some in Esg. rewrite nodeIndexOf_designated in Esg. apply (leaf_in_array k t); [assumption|].
    assert (N.to_nat (2 * designated (gi_signer gi)) < length t)%nat by (apply nth_error_Some; congruence). unfold lenN. lia. }
  rewrite (nodeIndexOf_leaf k me (proj1 F) Hm), nodeIndexOf_designated.
  destruct (commonAncestor_leaves k me (designated (gi_signer gi)) (proj1 F) Hm Hsg) as (a & Ha & Ea & A). exists a. unfold meet_at. auto.
Qed.
Lemma own_leaf_found raw k t l me : unmarshal getRatchetTree raw = Ok t -> shaped k t -> wf_leafNode l -> findLeaf t l = Ok (Some me) -> leaf_at t me = Some l.
Proof.
  intros Ht Sh Hw H. destruct (findLeaf_some _ _ _ H) as (l' & e & Hlt & Hg & He' & He). pose proof (shaped_full _ _ Sh) as F.
  rewrite (numLeaves_tree t k (proj1 F) (proj2 F)) in Hlt. rewrite (getLeaf_at k) in Hg by assumption. apply Ok_inj in Hg. rewrite Hg. f_equal.
  assert (Hne : t <> []). { intros ->. unfold leaf_at in Hg. destruct (N.to_nat (2 * me)); discriminate. }
  destruct (decoded_tree raw t Ht Hne) as [_ Hn]. assert (Hw' : wf_leafNode l').
  { unfold leaf_at in Hg. destruct (nth_error t (N.to_nat (2 * me))) as [[[x|]|]|] eqn:En; try discriminate. injection Hg as ->. apply nth_error_In in En.
    rewrite Forall_forall in Hn. exact (Hn _ En). }
  pose proof (leafNode_RT l' e [] Hw' He') as R1. pose proof (leafNode_RT l e [] Hw He) as R2. congruence.
Qed.

Theorem accepted_admits w kpp now g : crypto_ok C -> later_than_1970 now -> ordinary w kpp -> groupFromWelcome w kpp now = Ok g ->
  exists s gi k, admits w kpp s gi k (gr_value g) (gr_myLeafIndex g) now /\ gr_context g = gi_groupContext gi.
Proof.
  intros OK Hnow (Ow & Oz & Os & Oo) H. apply groupFromWelcome_inv in H as (ref & s & Er & Es & Ep & H). apply groupFromSecrets_inv in H.
  destruct H as (psk & gi & raw & t & signer & epoch & init & interim & me & priv & Epsk & Egi & Eraw & Et & Esg & Esig & Etag & Ecs & Ev & Eep & Ein & Eint & Eme & -> & priv0 & Ep0 & Epr).
  destruct (load t) as [h pt] eqn:El. destruct (load_value t h pt El) as (V & P & L). cbn [fst snd].
  unfold gr_value. cbn [gr_heap gr_tree gr_myLeafIndex gr_context]. rewrite V.
  rewrite Ep in Epsk.
  assert (Kn : known_suite (w_cipherSuite w)).
  { unfold decryptGroupInfo in Egi. apply rbind_ok in Egi as ([key nonce] & Hk & _). apply rbind_ok in Hk as (x & Hx & Hk). apply rbind_ok in Hk as (nn & Hnn & _).
    unfold aeadNonceSize in Hnn. apply rbind_ok in Hnn as (d & Hd & _). exact (describe_is_known _ _ Hd). }
  assert (Kk : known_suite (kp_cipherSuite (kpp_public kpp))).
  { unfold keyPackageRef in Er. apply rbind_ok in Er as (x & Hx & Er). unfold refHash in Er. apply rbind_ok in Er as (y & Hy & Er). unfold hashSum in Er. apply rbind_ok in Er as (d & Hd & _). exact (describe_is_known _ _ Hd). }
  pose proof (keyPackageRef_only _ _ Er) as ->. apply (gives_pskSecret _ [] [] eq_refl) in Epsk. subst psk.
  assert (Hos : opens_secrets w kpp s) by now apply secrets_opened.
  assert (Hoi : opens_info w s gi) by now apply opens_info_iff.
  assert (Hht : holds_tree gi t) by (apply holds_tree_iff; eauto).
  destruct (Oo s gi t Hos Ep Hoi Hht) as (_ & Z & Once).
  assert (Hne : t <> []). { intros ->. apply getLeaf_some in Esg. destruct (N.to_nat _); discriminate. }
  destruct (decoded_tree raw t Et Hne) as ((k & F) & Hn).
  destruct (verifyIntegrity_full_sound k t _ now F (wf_nodes_lifetimes t Hn) Hnow Once Ev) as [Sh Hint].
  assert (Hl : leaf_at t me = Some (kp_leafNode (kpp_public kpp))) by (apply (own_leaf_found raw k); auto; apply Ow).
  exists s, gi, k. split; [|reflexivity]. constructor; auto.
  - exists signer. split; [|now apply info_signature_verified]. apply getLeaf_some in Esg. rewrite nodeIndexOf_designated in Esg. unfold leaf_at. now rewrite Esg.
  - rewrite (confirmation_verified gi _ _ epoch Etag Eep). apply (gives_epoch _ _ _) in Eep. now subst epoch.
  - intros p a Hp Ha. rewrite Hp in Epr. destruct (meets k t me _ gi signer Sh Hl Esg) as (a' & Hin & Ha' & E). rewrite (meet_unique _ _ _ _ _ Ha Ha').
    rewrite E, Ecs in Epr. assert (Fp : full k priv0).
    { split; [apply F|]. apply setN_len in Ep0. rewrite Ep0. unfold lenN. rewrite repeat_length. apply F. }
    apply (proj1 (path_iff (w_cipherSuite w) k t priv0 p a' Sh Kn Hin Fp)). eauto.
Qed.

Lemma info_sizes gi : short (enc_groupInfo gi) ->
  lenN (enc_groupInfoTBS gi) < 2 ^ 30 /\ short (enc_groupContext (gi_groupContext gi)) /\ short (gi_confirmationTag gi).
Proof.
  unfold short, enc_groupInfo, enc_groupInfoTBS. rewrite !lenN_app. intros H. pose proof (vec_len (gi_confirmationTag gi)). splits; lia.
Qed.

Theorem admits_accepted w kpp s gi k t me now : crypto_ok C -> later_than_1970 now -> ordinary w kpp -> admits w kpp s gi k t me now ->
  exists g, groupFromWelcome w kpp now = Ok g /\ gr_value g = t /\ gr_context g = gi_groupContext gi /\ gr_myLeafIndex g = me.
Proof.
  intros OK Hnow (Ow & Oz & Os & Oo) I. pose proof (ad_shaped _ _ _ _ _ _ _ _ I) as Sh. pose proof (ad_leaf _ _ _ _ _ _ _ _ I) as Hme.
  destruct (Oo s gi t (ad_secrets _ _ _ _ _ _ _ _ I) (ad_psks _ _ _ _ _ _ _ _ I) (ad_info _ _ _ _ _ _ _ _ I) (ad_tree _ _ _ _ _ _ _ _ I)) as (Zs & Z & Once).
  pose proof (ad_same _ _ _ _ _ _ _ _ I) as Ec. pose proof (ad_psks _ _ _ _ _ _ _ _ I) as Ep.
  set (cs := w_cipherSuite w) in *. set (psk := psk_secret cs []) in *. set (ctx := gi_groupContext gi) in *.
  assert (Kc : known_suite (gc_cipherSuite ctx)) by (destruct (proj1 (proj1 (ad_valid _ _ _ _ _ _ _ _ I))) as (d & Hd); exists d; now rewrite suite_eq).
  assert (Kn : known_suite cs) by (now rewrite <- Ec).
  assert (R1 : keyPackageRef (kpp_public kpp) = Ok (KeyPackageRef (kpp_public kpp))).
  { apply (gives_keyPackageRef _ Ow). split; [apply (ad_suite _ _ _ _ _ _ _ _ I)|exact Oz]. }
  assert (R2 : decryptGroupSecrets w (KeyPackageRef (kpp_public kpp)) (kpp_initKey kpp) = Ok s).
  { apply secrets_open; auto; [unfold wf_groupSecrets; rewrite Ep; constructor|apply (ad_secrets _ _ _ _ _ _ _ _ I)]. }
  assert (Hpsk : extractPSKSecret cs [] [] = Ok psk) by (apply (gives_pskSecret cs [] [] eq_refl); split; [exact Kn|constructor]).
  assert (Hgi : decryptGroupInfo w (gs_joinerSecret s) psk = Ok gi) by exact (proj2 (opens_info_iff w s gi OK Kn) (ad_info _ _ _ _ _ _ _ _ I)).
  destruct (proj1 (holds_tree_iff gi t) (ad_tree _ _ _ _ _ _ _ _ I)) as (raw & Hraw & Htree).
  pose proof (decoded_encodable _ _ Htree) as Henc.
  destruct (ad_signed _ _ _ _ _ _ _ _ I) as (signer & Hsg & Hsigned).
  assert (Hsigner : getLeaf t (gi_signer gi) = Ok (Some signer)).
  { apply getLeaf_some. rewrite nodeIndexOf_designated. unfold leaf_at in Hsg. destruct (nth_error t _) as [[[l'|]|]|]; congruence. }
  pose proof (info_sizes gi Z) as Sz. fold ctx in Sz.
  destruct Sz as (S1 & S2 & S3).
  assert (Hver : groupInfoVerifySignature gi (ln_signatureKey signer) = Ok true).
  { unfold groupInfoVerifySignature. apply (put_verify _ _ _ _ _ _ (writes_groupInfoTBS gi)); [unfold short; vm_compute; reflexivity|].
    split; [|exact Hsigned]. eapply can_encode_fits; [apply fills_groupInfoTBS|exact S1]. }
  set (epoch := epoch_secret ctx (gs_joinerSecret s) psk).
  assert (Hep : extractEpochSecret ctx (gs_joinerSecret s) psk = Ok epoch) by (apply gives_epoch; split; assumption).
  assert (Htag : groupInfoVerifyConfirmationTag gi (gs_joinerSecret s) psk = Ok true).
  { unfold groupInfoVerifyConfirmationTag. cbv zeta. apply (proj2 (falseOnErr_true _)). fold ctx. rewrite Hep. cbn [rbind].
    rewrite (proj2 (gives_deriveSecret (gc_cipherSuite ctx) epoch secretLabelConfirm)) by (split; [exact Kc|unfold short; vm_compute; reflexivity]). cbn [rbind].
    unfold verifyMAC. rewrite (proj2 (gives_signMAC (gc_cipherSuite ctx) (DeriveSecret (gc_cipherSuite ctx) epoch secretLabelConfirm) (gc_confirmedTranscriptHash ctx)) Kc). cbn [rbind].
    rewrite (ad_tag _ _ _ _ _ _ _ _ I). fold ctx cs psk epoch. unfold confirmation_tag. now rewrite bytes_eqb_refl. }
  assert (Hne : t <> []). { intros ->. unfold leaf_at in Hme. destruct (N.to_nat (2 * me)); discriminate. }
  destruct (decoded_tree raw t Htree Hne) as (_ & Hwn).
  assert (Hvi : verifyIntegrity t ctx now = Ok tt).
  { apply (verifyIntegrity_complete k); auto; [now apply wf_nodes_lifetimes|apply (ad_valid _ _ _ _ _ _ _ _ I)]. }
  assert (Hinit : deriveSecret (gc_cipherSuite ctx) epoch secretLabelInit = Ok (DeriveSecret (gc_cipherSuite ctx) epoch secretLabelInit))
    by (apply gives_deriveSecret; split; [exact Kc|unfold short; vm_compute; reflexivity]).
  assert (Hint : nextInterimTranscriptHash (gc_cipherSuite ctx) (gc_confirmedTranscriptHash ctx) (gi_confirmationTag gi) =
    Ok (interim_transcript_hash (gc_cipherSuite ctx) (gc_confirmedTranscriptHash ctx) (gi_confirmationTag gi))) by (apply gives_interim; split; assumption).
  destruct (leaf_parts _ Ow Oz) as (le & Hle).
  assert (Hfind : findLeaf t (kp_leafNode (kpp_public kpp)) = Ok (Some me)).
  { eapply findLeaf_there; eauto. destruct (ad_valid _ _ _ _ _ _ _ _ I) as [(_ & _ & _ & _ & _ & Hk & _) _]. exact Hk. }
  destruct (meets k t me _ gi signer Sh Hme Hsigner) as (a & Hin & Ha & Ea).
  assert (Hmelt : me < leaf_count k) by (apply (member_in_array k t); [assumption|congruence]).
  assert (Hni : nodeIndexOf me = 2 * me) by (apply (nodeIndexOf_leaf k); auto; apply Sh).
  assert (Hlt : 2 * me < lenN t).
  { unfold leaf_at in Hme. destruct (nth_error t (N.to_nat (2 * me))) eqn:En; [|discriminate]. assert (N.to_nat (2 * me) < length t)%nat by (apply nth_error_Some; congruence). unfold lenN. lia. }
  pose (priv := upd (repeat None (length t)) (N.to_nat (2 * me)) (Some (kpp_encryptionKey kpp))).
  assert (Hset : setN (repeat None (length t)) (nodeIndexOf me) (Some (kpp_encryptionKey kpp)) = Ok priv).
  { rewrite Hni. apply setN_in. unfold lenN in *. now rewrite repeat_length. }
  assert (Fp : full k priv).
  { destruct Sh as [[F1 F2] _]. split; [exact F1|]. unfold priv, lenN in *. now rewrite upd_length, repeat_length. }
  assert (Hpriv : exists priv', match gs_pathSecret s with None => Ok priv | Some p => processPathSecret (gc_cipherSuite ctx) t priv p (commonAncestor (nodeIndexOf me) (nodeIndexOf (gi_signer gi))) end = Ok priv').
  { destruct (gs_pathSecret s) as [p|] eqn:Eps; [|eauto]. rewrite Ea, Ec. apply (proj2 (path_iff cs k t priv p a Sh Kn Hin Fp)). exact (ad_path _ _ _ _ _ _ _ _ I p a Eps Ha). }
  destruct Hpriv as (priv' & Hpriv).
  destruct (load t) as [h pt] eqn:El. destruct (load_value t h pt El) as (V & P & L).
  eexists. split.
  - unfold groupFromWelcome. rewrite R1. cbn [rbind]. rewrite R2. cbn [rbind]. unfold verifySingleReinitOrBranchPSK. rewrite Ep. cbn [filter]. change (lenN (@nil preSharedKeyID)) with 0. cbn [guard rbind N.leb N.eqb N.compare].
    unfold groupFromSecrets. rewrite Ep. fold cs. rewrite Hpsk. cbn [rbind].
    rewrite Hgi. cbn [rbind]. cbv zeta.
    rewrite Hraw, Htree. cbn [rbind]. rewrite Hsigner. cbn [rbind]. rewrite Hver. cbn [guard rbind].
    rewrite Htag. cbn [guard rbind]. fold ctx. replace (gc_cipherSuite ctx =? cs) with true by (symmetry; now apply N.eqb_eq). cbn [guard rbind]. rewrite Hvi. cbn [rbind].
    rewrite Hep. cbn [rbind]. rewrite Hinit. cbn [rbind]. rewrite Hint. cbn [rbind]. rewrite Hfind. cbn [rbind]. rewrite Hset. cbn [rbind]. rewrite Hpriv. cbn [rbind]. rewrite El. reflexivity.
  - unfold gr_value. cbn [gr_heap gr_tree gr_context gr_myLeafIndex]. splits; auto.
Qed.

Theorem welcomes_accepted_iff w kpp now ctx t me : crypto_ok C -> later_than_1970 now -> ordinary w kpp ->
  (exists g, groupFromWelcome w kpp now = Ok g /\ gr_value g = t /\ gr_context g = ctx /\ gr_myLeafIndex g = me) <->
  (exists s gi k, admits w kpp s gi k t me now /\ ctx = gi_groupContext gi).
Proof.
  intros OK Hn O. split.
  - intros (g & H & <- & <- & <-). now apply accepted_admits.
  - intros (s & gi & k & I & ->). now apply (admits_accepted w kpp s gi k).
Qed.
End WithCrypto.
