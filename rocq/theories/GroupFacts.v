(** Facts about processing messages. *)
From Verif Require Export ProposalFacts SpecGroup WireSpecFacts RfcFacts.

Section WithCrypto.
Context {C : crypto}.

Lemma describe_ok cs d : describe cs = Ok d <-> cipherSuiteDescriptions cs = Some d.
Proof. unfold describe. destruct (cipherSuiteDescriptions cs); split; congruence. Qed.

Lemma verifyWithLabel_true cs key label content sig : verifyWithLabel cs key label content sig = Ok true ->
  exists signed alg, putLabelled label content = Ok signed /\
    option_map sd_sig (cipherSuiteDescriptions cs) = Some alg /\ sigVerify alg key signed sig = Ok true.
Proof.
  unfold verifyWithLabel. destruct (putLabelled label content); try discriminate. intros H. rinv. apply describe_ok in E. rewrite E.
  exists a, (sd_sig v). auto.
Qed.

Lemma falseOnPutErr_true w k : falseOnPutErr w k = Ok true -> exists raw, w = Ok raw /\ k raw = Ok true.
Proof. destruct w; cbn; try discriminate. eauto. Qed.

Lemma getLeaf_some t li l : getLeaf t li = Ok (Some l) <-> nth_error t (N.to_nat (nodeIndexOf li)) = Some (Some (NLeaf l)).
Proof.
  unfold getLeaf. split.
  - intros H. rinv. destruct v as [[?|?]|]; try discriminate. apply Ok_inj in H. inversion H; subst. now apply getN_ok.
  - intros H. apply getN_ok in H. rewrite H. reflexivity.
Qed.

Lemma verifyPublicMessage_ok g m ac : verifyPublicMessage g m = Ok ac ->
  ac = mkAuthenticatedContent 1 (pubm_content m) (pubm_auth m) /\ authentic g ac /\ membership_tagged g m.
Proof.
  unfold verifyPublicMessage. intros H. rinv. apply bytes_eqb_true in E. apply N.eqb_eq in E0.
  destruct (fc_sender (pubm_content m)) as [li| | |] eqn:Es; try discriminate. rinv.
  destruct v as [leaf|]; try discriminate. rinv. subst.
  apply (put_verify _ _ _ _ _ _ (writes_framedContentTBS _ _ _)) in E2 as [_ Ev]; [|reflexivity].
  split; [reflexivity|]. split.
  - split; [exact E|]. split; [exact E0|]. exists li, leaf. splits; auto. now apply getLeaf_some in E1.
  - unfold verifyMembershipTag in E5. rewrite Es in E5. cbn in E5. apply falseOnPutErr_true in E5.
    destruct E5 as (tbm & Etbm & Hm). apply verifyMAC_only in Hm. apply (proj1 (gives_deriveSecret _ _ _)) in E4. subst v1.
    rewrite (writes_authenticatedContentTBM _ _ _ _ _ Etbm) in Hm. exact Hm.
Qed.

Lemma openPrivateMessage_ok g m ac raw : unmarshal getMlsMessage raw = Ok (MPrivate m) ->
  openPrivateMessage g m = Ok ac -> carries g raw ac /\ authentic g ac.
Proof.
  unfold openPrivateMessage. intros Hraw H. rinv. apply bytes_eqb_true in E. apply N.eqb_eq in E0.
  destruct v5 as [leaf|]; try discriminate. rinv. subst.
  apply (put_verify _ _ _ _ _ _ (writes_framedContentTBS _ _ _)) in E6 as [_ Ev]; [|reflexivity]. split.
  - eapply (carries_private g raw m v1 v2 v3 v4); eauto.
  - split; [exact E|]. split; [exact E0|]. exists (sd_leafIndex v2), leaf. splits; auto.
    now apply getLeaf_some in E5.
Qed.

(** What accepting or changing anything implies *)
Lemma acted_on_or g raw now g' r : unmarshalAndProcessMessage g raw now = (g', r) ->
  (g' = g /\ rejected r) \/
  exists ac, carries g raw ac /\ authentic g ac /\
    (forall m, unmarshal getMlsMessage raw = Ok (MPublic m) -> membership_tagged g m) /\
    match fc_body (ac_content ac) with
    | BApplication d => g' = g /\ r = Ok (Some d) /\ exists m, unmarshal getMlsMessage raw = Ok (MPrivate m)
    | BProposal _ => (g', r) = noData (processProposal g ac)
    | BCommit _ => (g', r) = noData (processCommit g ac [] [] now)
    end.
Proof.
  unfold unmarshalAndProcessMessage. intros E.
  destruct (unmarshal getMlsMessage raw) as [mm|e|e|] eqn:Er; try (left; inversion E; cbn; auto; fail).
  destruct mm as [m|m|w|gi|k]; try (left; inversion E; cbn; auto; fail).
  - unfold processPublicMessage in E. destruct (verifyPublicMessage g m) as [ac|e|e|] eqn:Ev;
      try (left; inversion E; cbn; auto; fail).
    destruct (verifyPublicMessage_ok _ _ _ Ev) as (Hac & Hau & Hmt).
    destruct (fc_body (ac_content ac)) as [d|p|c] eqn:Eb; try (left; inversion E; cbn; auto; fail).
    all: right; exists ac; rewrite Eb; splits; auto; [rewrite Hac; now apply carries_public|].
    all: intros m' Hm'; assert (m' = m) by congruence; now subst.
  - unfold processPrivateMessage in E. destruct (openPrivateMessage g m) as [ac|e|e|] eqn:Ev;
      try (left; inversion E; cbn; auto; fail).
    destruct (openPrivateMessage_ok _ _ _ _ Er Ev) as (Hac & Hau).
    right. exists ac. splits; auto; [congruence|].
    destruct (fc_body (ac_content ac)) as [d|p|c] eqn:Eb; auto.
    inversion E; subst. splits; eauto.
Qed.

Lemma acted_on g raw now : let (g', r) := unmarshalAndProcessMessage g raw now in
  g' <> g \/ is_ok r = true ->
  exists ac, carries g raw ac /\ authentic g ac /\
    (forall m, unmarshal getMlsMessage raw = Ok (MPublic m) -> membership_tagged g m) /\
    match fc_body (ac_content ac) with
    | BApplication d => g' = g /\ r = Ok (Some d) /\ exists m, unmarshal getMlsMessage raw = Ok (MPrivate m)
    | BProposal _ => (g', r) = noData (processProposal g ac)
    | BCommit _ => (g', r) = noData (processCommit g ac [] [] now)
    end.
Proof.
  destruct (unmarshalAndProcessMessage g raw now) as [g' r] eqn:E. apply acted_on_or in E.
  destruct E as [[E1 E2]|E]; auto. intros [H|H]; [congruence|]. destruct r; try discriminate. destruct E2.
Qed.

Lemma authenticated g raw now g' r : unmarshalAndProcessMessage g raw now = (g', r) ->
  (g' = g /\ rejected r) \/
  exists ac, carries g raw ac /\ authentic g ac /\
    (forall m, unmarshal getMlsMessage raw = Ok (MPublic m) -> membership_tagged g m) /\
    (forall d, r = Ok (Some d) -> fc_body (ac_content ac) = BApplication d).
Proof.
  intros E. apply acted_on_or in E. destruct E as [E|(ac & H1 & H2 & H3 & H4)]; [auto|right]. exists ac. splits; auto.
  intros d Hd. destruct (fc_body (ac_content ac)).
  - destruct H4 as (_ & H4 & _). congruence.
  - unfold noData in H4. destruct (processProposal g ac) as [? []]; cbn in H4; inversion H4; subst; discriminate.
  - unfold noData in H4. destruct (processCommit g ac [] [] now) as [? []]; cbn in H4; inversion H4; subst; discriminate.
Qed.

(** The content is determined by the bytes. *)
Lemma carries_fun g raw ac ac' : carries g raw ac -> carries g raw ac' -> ac = ac'.
Proof. intros H1 H2. destruct H1; inversion H2; subst; congruence. Qed.

Lemma application_data_returned g raw now g' d : unmarshalAndProcessMessage g raw now = (g', Ok (Some d)) ->
  g' = g /\ exists ac m, carries g raw ac /\ authentic g ac /\ fc_body (ac_content ac) = BApplication d /\
                         unmarshal getMlsMessage raw = Ok (MPrivate m).
Proof.
  intros E. pose proof (acted_on g raw now) as A. rewrite E in A. destruct A as (ac & Hc & Ha & _ & Hb); [auto|].
  destruct (fc_body (ac_content ac)) as [d'|p|c] eqn:Eb.
  - destruct Hb as (-> & Hd & m & Hm). inversion Hd; subst. split; auto. exists ac, m. auto.
  - unfold noData in Hb. destruct (processProposal g ac) as [g1 [[]| | |]]; cbn in Hb; discriminate.
  - unfold noData in Hb. destruct (processCommit g ac [] [] now) as [g1 [[]| | |]]; cbn in Hb; discriminate.
Qed.

Lemma wrong_group g raw now m gid e : unmarshal getMlsMessage raw = Ok m -> names_group m = Some (gid, e) ->
  gid <> gc_groupID (gr_context g) \/ e <> gc_epoch (gr_context g) ->
  exists err, unmarshalAndProcessMessage g raw now = (g, Err err).
Proof.
  intros Er Hn H. unfold unmarshalAndProcessMessage. rewrite Er. destruct m as [m|m|w|gi|k]; try discriminate; inversion Hn; subst.
  - unfold processPublicMessage, verifyPublicMessage.
    destruct (bytes_eqb_spec (fc_groupID (pubm_content m)) (gc_groupID (gr_context g))); cbn; [|eexists; reflexivity].
    destruct (N.eqb_spec (fc_epoch (pubm_content m)) (gc_epoch (gr_context g))); cbn; [tauto|eexists; reflexivity].
  - unfold processPrivateMessage, openPrivateMessage.
    destruct (bytes_eqb_spec (privm_groupID m) (gc_groupID (gr_context g))); cbn; [|eexists; reflexivity].
    destruct (N.eqb_spec (privm_epoch m) (gc_epoch (gr_context g))); cbn; [tauto|eexists; reflexivity].
Qed.

Lemma other_wire_formats g raw now m : unmarshal getMlsMessage raw = Ok m -> names_group m = None ->
  exists err, unmarshalAndProcessMessage g raw now = (g, Err err).
Proof. intros Er Hn. unfold unmarshalAndProcessMessage. rewrite Er. destruct m; try discriminate; eauto. Qed.

Lemma undecodable g raw now : is_ok (unmarshal getMlsMessage raw) = false ->
  fst (unmarshalAndProcessMessage g raw now) = g /\ rejected (snd (unmarshalAndProcessMessage g raw now)).
Proof. unfold unmarshalAndProcessMessage. destruct (unmarshal getMlsMessage raw); cbn; intuition discriminate. Qed.

Lemma public_non_member g raw now m : unmarshal getMlsMessage raw = Ok (MPublic m) ->
  (forall li, fc_sender (pubm_content m) <> SMember li) ->
  exists err, unmarshalAndProcessMessage g raw now = (g, Err err).
Proof.
  intros Er Hs. unfold unmarshalAndProcessMessage. rewrite Er. unfold processPublicMessage, verifyPublicMessage.
  destruct (bytes_eqb (fc_groupID (pubm_content m)) (gc_groupID (gr_context g))); cbn; [|eexists; reflexivity].
  destruct (N.eqb (fc_epoch (pubm_content m)) (gc_epoch (gr_context g))); cbn; [|eexists; reflexivity].
  destruct (fc_sender (pubm_content m)) as [li| | |] eqn:E; try (cbn; eexists; reflexivity). exfalso. eapply Hs; eauto.
Qed.

Lemma public_application g raw now m d : unmarshal getMlsMessage raw = Ok (MPublic m) ->
  fc_body (pubm_content m) = BApplication d ->
  fst (unmarshalAndProcessMessage g raw now) = g /\ rejected (snd (unmarshalAndProcessMessage g raw now)).
Proof.
  intros Er Hb. unfold unmarshalAndProcessMessage. rewrite Er. unfold processPublicMessage.
  destruct (verifyPublicMessage g m) as [ac|e|e|] eqn:Ev; cbn; auto.
  apply verifyPublicMessage_ok in Ev. destruct Ev as (-> & _ & _). cbn. rewrite Hb. cbn. auto.
Qed.

(** Proposals *)
Lemma proposal_accepted g raw now ac p g' r : carries g raw ac -> fc_body (ac_content ac) = BProposal p ->
  unmarshalAndProcessMessage g raw now = (g', Ok r) ->
  r = None /\ same_but_pending g g' /\
  exists li, fc_sender (ac_content ac) = SMember li /\
    gr_pending g' = gr_pending g ++ [mkPendingProposal (ProposalRef (gc_cipherSuite (gr_context g)) ac) p li].
Proof.
  intros Hc Hb E. pose proof (acted_on g raw now) as A. rewrite E in A. destruct A as (ac' & Hc' & Ha & _ & Hx); [auto|].
  assert (ac' = ac) by (eapply carries_fun; eauto). subst ac'. rewrite Hb in Hx.
  unfold noData, processProposal in Hx. rewrite Hb in Hx.
  destruct (generateProposalRef _ ac) as [ref|e|e|] eqn:Er; cbn in Hx; try discriminate.
  inversion Hx; subst. clear Hx. splits; auto; [reflexivity|]. apply proposalRef_only in Er. subst ref.
  destruct Ha as (_ & _ & li & leaf & Es & _). exists li. split; [exact Es|]. rewrite Es. reflexivity.
Qed.

(** Commits *)
Lemma processCommit_ok g ac ids psks now g' : processCommit g ac ids psks now = (g', Ok tt) ->
  exists c proposals senders h t,
    fc_body (ac_content ac) = BCommit c /\
    checkCommit g (sender_leafIndex (fc_sender (ac_content ac))) c = Ok (proposals, senders) /\
    applyH (gr_heap g) (gr_tree g) proposals senders = Ok (h, t) /\
    finishCommit g ac c h t ids psks now = Ok g'.
Proof.
  unfold processCommit. destruct (fc_body (ac_content ac)) as [d|p|c]; try (intros H; inversion H; fail).
  destruct (checkCommit _ _ c) as [[ps ss]| | |] eqn:E1; try (intros H; inversion H; fail).
  destruct (applyH _ _ ps ss) as [[h t]| | |] eqn:E2; try (intros H; inversion H; fail).
  destruct (finishCommit g ac c h t ids psks now) as [g1| | |] eqn:E3; try (intros H; inversion H; fail).
  intros H. inversion H; subst. exists c, ps, ss, h, t. auto.
Qed.

Lemma accepts_commit_inv g raw now ac c g' : accepts_commit g raw now ac c g' ->
  authentic g ac /\ processCommit g ac [] [] now = (g', Ok tt).
Proof.
  intros (Hc & Hb & E). pose proof (acted_on g raw now) as A. rewrite E in A. destruct A as (ac' & Hc' & Ha & _ & Hx); [auto|].
  assert (ac' = ac) by (eapply carries_fun; eauto). subst ac'. rewrite Hb in Hx. split; auto.
  unfold noData in Hx. destruct (processCommit g ac [] [] now) as [g1 [[]| | |]]; cbn in Hx; try discriminate.
  inversion Hx. reflexivity.
Qed.

Lemma checkCommit_ok g committer c proposals senders : checkCommit g committer c = Ok (proposals, senders) ->
  exists ps, Forall2 (stands_for committer (gr_pending g)) (c_proposals c) ps /\
    proposals = map fst ps /\ senders = map snd ps /\
    verifyProposalList proposals senders committer = Ok tt /\
    (forall k, In (PAdd k) proposals -> keyPackageVerify k (gr_context g) = Ok tt) /\
    (c_path c = None -> proposals <> [] /\ forall p, In p proposals -> ~ requires_path p).
Proof.
  unfold checkCommit. intros H. rinv. inversion H; subst. clear H. exists v. apply resolveProposals_spec in E. destruct v0. splits; auto.
  - intros k Hin. revert E1. clear -Hin. generalize tt at 2. induction (map fst v) as [|p l IH]; [destruct Hin|].
    cbn. intros u H. rinv. destruct u, v0, Hin as [->|Hin]; [exact E|]. eapply IH; eauto.
  - intros Hp. rewrite Hp, andb_true_r in E2. apply negb_true_iff in E2.
    assert (~ proposalListNeedsPath (map fst v) = true) by congruence. rewrite needsPath_spec in H. split.
    + intros En. apply H. auto.
    + intros p Hin Hr. apply H. right. eauto.
Qed.

Lemma finishCommit_ok g ac c h t ids psks now g' : finishCommit g ac c h t ids psks now = Ok g' ->
  exists priv nh h1 t1 treeHash commitSecret priv1 ctx interim pskSecret epochSecret initSecret,
    carryPriv (length (gr_tree g)) (length t) (gr_privTree g) = Ok priv /\
    extractSize (gc_cipherSuite (gr_context g)) = Ok nh /\
    match c_path c with
    | Some path => processPath g (sender_leafIndex (fc_sender (ac_content ac))) path h t priv now = Ok (h1, t1, treeHash, commitSecret, priv1)
    | None => h1 = h /\ t1 = t /\ computeRootTreeHash (gc_cipherSuite (gr_context g)) (deref h t) = Ok treeHash /\
              commitSecret = zeros nh /\ priv1 = priv
    end /\
    nextEpoch g ac treeHash commitSecret ids psks = Ok (ctx, interim, pskSecret, epochSecret, initSecret) /\
    g' = mkGroup h1 t1 ctx interim pskSecret epochSecret initSecret (gr_myLeafIndex g) priv1 (gr_signaturePriv g) [].
Proof.
  unfold finishCommit. intros H. rinv. subst. do 12 eexists. split; [eassumption|]. split; [eassumption|].
  split; [|split; [eassumption|reflexivity]].
  destruct (c_path c); [eassumption|]. rinv. inversion E1; subst. auto.
Qed.

Lemma keyPackageVerifySignature_spec k : keyPackageVerifySignature k = Ok true <->
  can_encode (putKeyPackageTBS k) /\
  VerifyWithLabel (kp_cipherSuite k) (ln_signatureKey (kp_leafNode k)) (str "KeyPackageTBS") (enc_keyPackageTBS k) (kp_signature k).
Proof.
  rewrite <- (put_verify _ _ _ _ _ _ (writes_keyPackageTBS k)) by reflexivity. unfold keyPackageVerifySignature, falseOnPutErr.
  destruct (putKeyPackageTBS k); reflexivity.
Qed.
Lemma keyPackageVerify_ok k ctx : keyPackageVerify k ctx = Ok tt -> addable ctx k.
Proof.
  unfold keyPackageVerify, addable. intros H. rinv. apply N.eqb_eq in E, E0, E1.
  apply negb_true_iff, bytes_eqb_false in H. splits; auto.
  - subst. apply keyPackageVerifySignature_spec in E2. tauto.
  - subst. apply keyPackageVerifySignature_spec in E2. tauto.
Qed.

Lemma commit_added_valid g raw now ac c g' : accepts_commit g raw now ac c g' ->
  exists ps, Forall2 (stands_for (sender_leafIndex (fc_sender (ac_content ac))) (gr_pending g)) (c_proposals c) ps /\
    forall k s, In (PAdd k, s) ps -> addable (gr_context g) k.
Proof.
  intros H. pose proof H as (_ & Hb & _). apply accepts_commit_inv in H. destruct H as [Ha H]. apply processCommit_ok in H.
  destruct H as (c' & proposals & senders & h & t & Hb' & Hc & _). assert (c' = c) by congruence. subst c'.
  apply checkCommit_ok in Hc. destruct Hc as (ps & F & -> & -> & _ & Hk & _). exists ps. split; auto.
  intros k s Hin. apply keyPackageVerify_ok, Hk. apply in_map_iff. exists (PAdd k, s). auto.
Qed.

Lemma commit_clears_pending g raw now ac c g' : accepts_commit g raw now ac c g' -> gr_pending g' = [].
Proof.
  intros H. apply accepts_commit_inv in H. destruct H as [_ H]. apply processCommit_ok in H.
  destruct H as (c' & proposals & senders & h & t & _ & _ & _ & H). apply finishCommit_ok in H.
  destruct H as (? & ? & ? & ? & ? & ? & ? & ? & ? & ? & ? & ? & _ & _ & _ & _ & ->). reflexivity.
Qed.

Lemma missing_path g ac c ids psks now ps :
  fc_body (ac_content ac) = BCommit c -> c_path c = None ->
  Forall2 (stands_for (sender_leafIndex (fc_sender (ac_content ac))) (gr_pending g)) (c_proposals c) ps ->
  ps = [] \/ (exists p s, In (p, s) ps /\ requires_path p) ->
  fst (processCommit g ac ids psks now) = g /\ rejected (snd (processCommit g ac ids psks now)).
Proof.
  intros Hb Hp F H. unfold processCommit. rewrite Hb.
  destruct (checkCommit _ _ c) as [[proposals senders]| | |] eqn:E; cbn; auto. exfalso.
  apply checkCommit_ok in E. destruct E as (ps' & F' & -> & -> & _ & _ & Hn).
  assert (ps' = ps). { apply resolveProposals_spec in F, F'. congruence. }
  subst. destruct (Hn Hp) as [H1 H2]. destruct H as [->|(p & s & Hin & Hr)].
  - now apply H1.
  - apply (H2 p); auto. apply in_map_iff. exists (p, s). auto.
Qed.

Lemma missing_path_raw g raw now ac c ps : carries g raw ac ->
  fc_body (ac_content ac) = BCommit c -> c_path c = None ->
  Forall2 (stands_for (sender_leafIndex (fc_sender (ac_content ac))) (gr_pending g)) (c_proposals c) ps ->
  ps = [] \/ (exists p s, In (p, s) ps /\ requires_path p) ->
  fst (unmarshalAndProcessMessage g raw now) = g /\ rejected (snd (unmarshalAndProcessMessage g raw now)).
Proof.
  intros Hc Hb Hp F H. destruct (unmarshalAndProcessMessage g raw now) as [g' r] eqn:E. cbn.
  destruct (missing_path g ac c [] [] now ps Hb Hp F H) as [H1 H2].
  apply acted_on_or in E. destruct E as [E|(ac' & Hc' & _ & _ & Hx)]; auto.
  assert (ac' = ac) by (eapply carries_fun; eauto). subst ac'.
  rewrite Hb in Hx. unfold noData in Hx. destruct (processCommit g ac [] [] now) as [g1 r1]. cbn in *.
  inversion Hx; subst. split; auto. destruct r1; cbn in *; auto.
Qed.
End WithCrypto.

(** ** Leaves targeted by commits *)
Section WithCrypto.
Context {C : crypto}.

Lemma authentic_sender g ac : authentic g ac -> exists li, fc_sender (ac_content ac) = SMember li.
Proof. intros (_ & _ & li & _ & H & _). eauto. Qed.

Lemma rule_from_targets count committer s l : rule_from count committer s l ->
  NoDup (changedLeaves l) /\ ~ In committer (changedLeaves l).
Proof. intros (_ & (H1 & _ & H2) & _). auto. Qed.

Lemma verifyProposalList_targets ps committer :
  verifyProposalList (map fst ps) (map snd ps) committer = Ok tt ->
  NoDup (changedLeaves ps) /\ ~ In committer (changedLeaves ps).
Proof.
  unfold verifyProposalList. rewrite rmap_fst_combine. unfold lenN. rewrite !map_length, N.eqb_refl. cbn [negb].
  fold (lenN ps). intros H. rinv.
  assert (R : is_ok (foldM (verifyProposal (lenN ps) committer) (mkSeen [] [] [] false) ps) = true) by (rewrite E; reflexivity).
  apply foldM_verifyProposal in R. now apply rule_from_targets in R.
Qed.

Lemma NoDup_map_on {A B} (f : A -> B) l : (forall x y, In x l -> In y l -> f x = f y -> x = y) -> NoDup l -> NoDup (map f l).
Proof.
  intros Hf ND. induction ND as [|a l Ha ND IH]; cbn; constructor.
  - intros Hin. apply in_map_iff in Hin. destruct Hin as (b & Hb & Hin). apply Ha. rewrite (Hf a b); cbn; auto.
  - apply IH. intros; apply Hf; cbn; auto.
Qed.

Lemma commit_targets g raw now ac c g' li ps : accepts_commit g raw now ac c g' ->
  fc_sender (ac_content ac) = SMember li -> commits g li c ps ->
  (forall t, In t (li :: changedLeaves ps) -> t < 2 ^ 31) ->
  NoDup (map leaf_position (changedLeaves ps)) /\ ~ In (leaf_position li) (map leaf_position (changedLeaves ps)).
Proof.
  intros H Hs F Hlt. pose proof H as (_ & Hb & _). apply accepts_commit_inv in H. destruct H as [Ha H]. apply processCommit_ok in H.
  destruct H as (c' & proposals & senders & h & t & Hb' & Hc & _). assert (c' = c) by congruence. subst c'.
  rewrite Hs in Hc. cbn [sender_leafIndex] in Hc. apply checkCommit_ok in Hc.
  destruct Hc as (ps' & F' & -> & -> & Hv & _).
  assert (ps' = ps). { apply resolveProposals_spec in F'. apply resolveProposals_spec in F. congruence. } subst ps'.
  apply verifyProposalList_targets in Hv. destruct Hv as [H1 H2].
  assert (Hp : forall x, In x (li :: changedLeaves ps) -> leaf_position x = 2 * x).
  { intros x Hx. unfold leaf_position. apply N.mod_small. specialize (Hlt x Hx).
    change (2 ^ 32) with (2 * 2 ^ 31). lia. }
  split.
  - apply NoDup_map_on; auto. intros x y Hx Hy E. rewrite (Hp x), (Hp y) in E by (cbn; auto). lia.
  - intros Hin. apply in_map_iff in Hin. destruct Hin as (x & Hx & Hin). rewrite (Hp x), (Hp li) in Hx by (cbn; auto).
    assert (x = li) by lia. now subst.
Qed.

(** ** What a commit leaves alone *)
Lemma nextEpoch_ok g ac treeHash commitSecret ids psks ctx interim pskSecret epochSecret initSecret :
  nextEpoch g ac treeHash commitSecret ids psks = Ok (ctx, interim, pskSecret, epochSecret, initSecret) ->
  exists confirmed joiner,
    confirmedTranscriptHash (gc_cipherSuite (gr_context g)) (ac_wireFormat ac) (ac_content ac) (ad_signature (ac_auth ac)) (gr_interimTranscriptHash g) = Ok confirmed /\
    ctx = nextContext (gr_context g) treeHash confirmed /\
    nextInterimTranscriptHash (gc_cipherSuite (gr_context g)) confirmed (ad_confirmationTag (ac_auth ac)) = Ok interim /\
    extractJoinerSecret ctx (gr_initSecret g) commitSecret = Ok joiner /\
    extractPSKSecret (gc_cipherSuite (gr_context g)) ids psks = Ok pskSecret /\
    extractEpochSecret ctx joiner pskSecret = Ok epochSecret /\
    deriveSecret (gc_cipherSuite (gr_context g)) epochSecret secretLabelInit = Ok initSecret.
Proof.
  unfold nextEpoch. intros H. rinv. inversion H; subst. do 2 eexists. splits; eauto.
Qed.

Lemma commit_new_state g raw now ac c g' : accepts_commit g raw now ac c g' ->
  exists treeHash confirmed commitSecret joiner pskSecret epochSecret,
    gr_context g' = mkGroupContext (gc_version (gr_context g)) (gc_cipherSuite (gr_context g)) (gc_groupID (gr_context g))
                      ((gc_epoch (gr_context g) + 1) mod 2 ^ 64) treeHash confirmed (gc_extensions (gr_context g)) /\
    gr_myLeafIndex g' = gr_myLeafIndex g /\ gr_signaturePriv g' = gr_signaturePriv g /\ gr_pending g' = [] /\
    confirmedTranscriptHash (gc_cipherSuite (gr_context g)) (ac_wireFormat ac) (ac_content ac) (ad_signature (ac_auth ac)) (gr_interimTranscriptHash g) = Ok confirmed /\
    nextInterimTranscriptHash (gc_cipherSuite (gr_context g)) confirmed (ad_confirmationTag (ac_auth ac)) = Ok (gr_interimTranscriptHash g') /\
    extractJoinerSecret (gr_context g') (gr_initSecret g) commitSecret = Ok joiner /\
    extractPSKSecret (gc_cipherSuite (gr_context g)) [] [] = Ok pskSecret /\
    extractEpochSecret (gr_context g') joiner pskSecret = Ok epochSecret /\
    gr_pskSecret g' = pskSecret /\ gr_epochSecret g' = epochSecret.
Proof.
  intros H. apply accepts_commit_inv in H. destruct H as [_ H]. apply processCommit_ok in H.
  destruct H as (c' & proposals & senders & h & t & _ & _ & _ & H). apply finishCommit_ok in H.
  destruct H as (? & ? & ? & ? & th & cs & ? & ctx & interim & psk & ep & ini & _ & _ & _ & Hn & ->). apply nextEpoch_ok in Hn.
  destruct Hn as (confirmed & joiner & H1 & H2 & H3 & H4 & H5 & H6 & H7). cbn.
  exists th, confirmed, cs, joiner, psk, ep. splits; auto.
Qed.

Lemma commit_keeps_extensions g raw now ac c g' : accepts_commit g raw now ac c g' ->
  gc_extensions (gr_context g') = gc_extensions (gr_context g).
Proof. intros H. apply commit_new_state in H. destruct H as (? & ? & ? & ? & ? & ? & -> & _). reflexivity. Qed.

Lemma extractPSKSecret_nil cs s : extractPSKSecret cs [] [] = Ok s ->
  exists d, cipherSuiteDescriptions cs = Some d /\ s = zeros (hashSize (sd_kdf d)).
Proof.
  unfold extractPSKSecret, extractSize, rmap, describe. cbn. destruct (cipherSuiteDescriptions cs) as [d|]; cbn; [|discriminate].
  intros H. apply Ok_inj in H. eauto.
Qed.


(** ** Histories *)
Lemma step_cases g raw now :
  (exists ac c, accepts_commit g raw now ac c (fst (unmarshalAndProcessMessage g raw now))) \/
  ((forall ac c g', ~ accepts_commit g raw now ac c g') /\
   let g' := fst (unmarshalAndProcessMessage g raw now) in
   gr_context g' = gr_context g /\ gr_myLeafIndex g' = gr_myLeafIndex g /\ gr_signaturePriv g' = gr_signaturePriv g /\
   gr_tree g' = gr_tree g /\ gr_interimTranscriptHash g' = gr_interimTranscriptHash g /\ gr_epochSecret g' = gr_epochSecret g /\
   gr_initSecret g' = gr_initSecret g /\ gr_privTree g' = gr_privTree g).
Proof.
  destruct (unmarshalAndProcessMessage g raw now) as [g1 r] eqn:E. cbn [fst].
  pose proof E as E0. apply acted_on_or in E. destruct E as [[-> Hr]|(ac & Hc & Ha & _ & Hx)].
  { right. split; [|splits; auto]. intros ac c g' (_ & _ & Hu). rewrite E0 in Hu. inversion Hu; subst. destruct Hr. }
  destruct (fc_body (ac_content ac)) as [d|p|c] eqn:Eb.
  - destruct Hx as (-> & -> & _). right. split; [|splits; auto]. intros ac' c g' (_ & _ & Hu). rewrite E0 in Hu. discriminate.
  - right. split.
    + intros ac' c g' (Hc' & Hb & _). assert (ac' = ac) by (eapply carries_fun; eauto). subst. congruence.
    + unfold noData, processProposal in Hx. rewrite Eb in Hx.
      destruct (generateProposalRef _ ac); inversion Hx; subst; cbn; splits; auto.
  - unfold noData in Hx. destruct (processCommit g ac [] [] now) as [g2 r2] eqn:Ep. cbn in Hx. inversion Hx; subst.
    destruct r2 as [u|e|e|].
    + left. exists ac, c. split; [auto|]. split; auto.
    + right. split; [intros ac' c' g' (_ & _ & Hu); rewrite E0 in Hu; discriminate|].
      unfold processCommit in Ep. rewrite Eb in Ep.
      destruct (checkCommit g _ c) as [[]|?|?|]; try (inversion Ep; subst; cbn; splits; auto; fail).
      destruct (applyH _ _ _ _) as [[]|?|?|]; try (inversion Ep; subst; cbn; splits; auto; fail).
      destruct (finishCommit _ _ _ _ _ _ _ _); inversion Ep; subst; cbn; splits; auto.
    + right. split; [intros ac' c' g' (_ & _ & Hu); rewrite E0 in Hu; discriminate|].
      unfold processCommit in Ep. rewrite Eb in Ep.
      destruct (checkCommit g _ c) as [[]|?|?|]; try (inversion Ep; subst; cbn; splits; auto; fail).
      destruct (applyH _ _ _ _) as [[]|?|?|]; try (inversion Ep; subst; cbn; splits; auto; fail).
      destruct (finishCommit _ _ _ _ _ _ _ _); inversion Ep; subst; cbn; splits; auto.
    + right. split; [intros ac' c' g' (_ & _ & Hu); rewrite E0 in Hu; discriminate|].
      unfold processCommit in Ep. rewrite Eb in Ep.
      destruct (checkCommit g _ c) as [[]|?|?|]; try (inversion Ep; subst; cbn; splits; auto; fail).
      destruct (applyH _ _ _ _) as [[]|?|?|]; try (inversion Ep; subst; cbn; splits; auto; fail).
      destruct (finishCommit _ _ _ _ _ _ _ _); inversion Ep; subst; cbn; splits; auto.
Qed.

Lemma commits_accepted_exists l : forall g, exists n, commits_accepted g l n.
Proof.
  induction l as [|[raw now] r IH]; intros g; [exists 0; constructor|].
  destruct (step_cases g raw now) as [(ac & c & Ha)|[Hn _]].
  - destruct (IH (fst (unmarshalAndProcessMessage g raw now))) as [n Hr]. exists (n + 1). econstructor; eauto.
  - destruct (IH (fst (unmarshalAndProcessMessage g raw now))) as [n Hr]. exists n. apply ca_other; auto.
Qed.

Lemma history l : forall g n, u64 (gc_epoch (gr_context g)) -> commits_accepted g l n ->
  let g' := after g l in
  gc_groupID (gr_context g') = gc_groupID (gr_context g) /\
  gc_cipherSuite (gr_context g') = gc_cipherSuite (gr_context g) /\
  gc_version (gr_context g') = gc_version (gr_context g) /\
  gr_myLeafIndex g' = gr_myLeafIndex g /\ gr_signaturePriv g' = gr_signaturePriv g /\
  gc_epoch (gr_context g') = (gc_epoch (gr_context g) + n) mod 2 ^ 64.
Proof.
  induction l as [|[raw now] r IH]; intros g n He H; cbn [after].
  - inversion H; subst. cbn zeta. splits; auto. unfold u64 in He. rewrite N.add_0_r, N.mod_small; auto.
  - inversion H as [|g0 raw0 now0 r0 n0 ac c g' Ha Hr|g0 raw0 now0 r0 n0 Hn Hr]; subst.
    + assert (Eg : fst (unmarshalAndProcessMessage g raw now) = g') by (destruct Ha as (_ & _ & Hu); rewrite Hu; reflexivity).
      rewrite Eg. pose proof (commit_new_state _ _ _ _ _ _ Ha) as (th & cf & x1 & x2 & x3 & x4 & Hctx & Hme & Hsig & _).
      assert (He' : u64 (gc_epoch (gr_context g'))).
      { rewrite Hctx. cbn. unfold u64. apply N.mod_lt. discriminate. }
      destruct (IH g' n0 He' Hr) as (H1 & H2 & H3 & H4 & H5 & H6). cbn zeta.
      rewrite H1, H2, H3, H4, H5, H6, Hctx, Hme, Hsig. cbn. splits; auto.
      rewrite N.add_mod_idemp_l by discriminate. f_equal. lia.
    + destruct (step_cases g raw now) as [(ac & c & Ha)|[_ (Hctx & Hme & Hsig & _)]]; [exfalso; eapply Hn; eauto|].
      assert (He' : u64 (gc_epoch (gr_context (fst (unmarshalAndProcessMessage g raw now))))) by (rewrite Hctx; exact He).
      destruct (IH _ n He' Hr) as (H1 & H2 & H3 & H4 & H5 & H6). cbn zeta.
      rewrite H1, H2, H3, H4, H5, H6, Hctx, Hme, Hsig. splits; auto.
Qed.
End WithCrypto.

Section WithCrypto.
Context {C : crypto}.
(** processCommit mixes the PSK secret of the PSKs it is given into the epoch
    secret; the public API gives it none. *)
Lemma commit_psk g ac ids psks now g' : processCommit g ac ids psks now = (g', Ok tt) ->
  exists s joiner,
    extractPSKSecret (gc_cipherSuite (gr_context g)) ids psks = Ok s /\ gr_pskSecret g' = s /\
    extractEpochSecret (gr_context g') joiner s = Ok (gr_epochSecret g').
Proof.
  intros H. apply processCommit_ok in H. destruct H as (c & pr & se & h & t & _ & _ & _ & H).
  apply finishCommit_ok in H. destruct H as (priv & nh & h1 & t1 & th & cse & priv1 & ctx & it & ps & es & is & _ & _ & _ & H & ->).
  apply nextEpoch_ok in H. destruct H as (cf & j & _ & _ & _ & _ & H1 & H2 & _). cbn. eauto.
Qed.

(** framing.go:372-377 decides whether a confirmation tag is right, but nothing
    calls it when a commit is processed. *)
Lemma confirmation_tag_checked cs a key confirmed : known_suite cs ->
  (authDataVerifyConfirmationTag cs a key confirmed = Ok true <->
   ad_confirmationTag a <> [] /\ ad_confirmationTag a = MAC cs key confirmed).
Proof.
  intros [d Hd]. rewrite suite_eq in Hd. unfold MAC. rewrite (hashOf_some _ _ Hd).
  unfold authDataVerifyConfirmationTag, verifyMAC, signMAC, describe. rewrite Hd. cbn [rbind].
  destruct (ad_confirmationTag a) as [|b l] eqn:E; cbn [lenN length N.of_nat N.eqb].
  - split; [discriminate|]. intros [H _]. congruence.
  - split.
    + intros H. apply Ok_inj in H. apply bytes_eqb_true in H. split; [discriminate|]. exact H.
    + intros [_ H]. change (Ok (bytes_eqb (b :: l) (cr_hmac C (sd_hash d) key confirmed)) = Ok true). rewrite <- H. now rewrite bytes_eqb_refl.
Qed.

Lemma keyPackageRef_nc k : wf_keyPackage k -> known_suite (kp_cipherSuite k) -> no_crash (keyPackageRef k).
Proof.
  intros Hw [d Hd]. rewrite suite_eq in Hd. unfold keyPackageRef, refHash, hashSum, describe.
  apply no_crash_bind; [apply keyPackage_nc; exact Hw|]. intros b _.
  apply no_crash_bind; [|intros; rewrite Hd; exact I].
  unfold putRefHashInput. wsafe.
Qed.
Lemma keyPackageRef_known raw k : unmarshalKeyPackage raw = Ok k -> known_suite (kp_cipherSuite k) -> no_crash (keyPackageRef k).
Proof.
  intros H Hd. apply (proj1 (unmarshalKeyPackage_ok _ _)) in H. apply mlsMessage_CAN in H. destruct H as (Hw & _).
  exact (keyPackageRef_nc _ Hw Hd).
Qed.

Lemma unknown_suite_not_added k ctx : kp_version k = gc_version ctx -> kp_cipherSuite k <> gc_cipherSuite ctx ->
  exists e, keyPackageVerify k ctx = Err e.
Proof.
  intros Hv Hc. unfold keyPackageVerify. rewrite Hv, N.eqb_refl. cbn [guard rbind].
  apply N.eqb_neq in Hc. rewrite Hc. eexists. reflexivity.
Qed.
End WithCrypto.

Section WithCrypto.
Context {C : crypto}.
Lemma missing_path_member g raw now ac c li ps : carries g raw ac ->
  fc_body (ac_content ac) = BCommit c -> fc_sender (ac_content ac) = SMember li -> c_path c = None -> commits g li c ps ->
  (ps = [] \/ exists p s, In (p, s) ps /\ requires_path p) ->
  fst (unmarshalAndProcessMessage g raw now) = g /\ rejected (snd (unmarshalAndProcessMessage g raw now)).
Proof. intros Hc Hb Hs Hp H. eapply missing_path_raw; eauto. rewrite Hs. exact H. Qed.

Lemma commit_added_valid_member g raw now ac c g' li : accepts_commit g raw now ac c g' -> fc_sender (ac_content ac) = SMember li ->
  exists ps, commits g li c ps /\ forall k s, In (PAdd k, s) ps -> addable (gr_context g) k.
Proof. intros H Hs. apply commit_added_valid in H. rewrite Hs in H. exact H. Qed.
End WithCrypto.

Section WithCrypto.
Context {C : crypto}.
Lemma application_data_unchanged g raw now g' d : unmarshalAndProcessMessage g raw now = (g', Ok (Some d)) -> g' = g.
Proof. intros H. now apply application_data_returned in H. Qed.
Lemma replay_is_delivered g raw now g' d : unmarshalAndProcessMessage g raw now = (g', Ok (Some d)) ->
  unmarshalAndProcessMessage g' raw now = (g', Ok (Some d)).
Proof. intros H. pose proof (application_data_unchanged _ _ _ _ _ H). now subst. Qed.
End WithCrypto.
