(** Valid messages are accepted. *)
From Verif Require Export SpecAccept FollowFacts CrashFacts.

Section WithCrypto.
Context {C : crypto}.

(** The same in terms of what the code reads *)
Record received (g : group) (raw : bytes) (ac : authenticatedContent) : Prop := {
  rc_carries : carries g raw ac;
  rc_authentic : authentic g ac;
  rc_tagged : forall m, unmarshal getMlsMessage raw = Ok (MPublic m) -> membership_tagged g m;
  rc_size : lenN (enc_authenticatedContentTBM (ac_wireFormat ac) (ac_content ac) (gr_context g) (ac_auth ac)) < 2 ^ 27
}.

(** ** Sizes *)
Lemma size_parts g raw ac : received g raw ac ->
  lenN (enc_framedContentTBS (ac_wireFormat ac) (ac_content ac) (gr_context g)) < 2 ^ 30 /\
  lenN (enc_authenticatedContentTBM (ac_wireFormat ac) (ac_content ac) (gr_context g) (ac_auth ac)) < 2 ^ 30 /\
  lenN (enc_groupContext (gr_context g)) < 2 ^ 27 /\ short (enc_authenticatedContent ac) /\
  (forall c, fc_body (ac_content ac) = BCommit c ->
     short (enc_confirmedTranscriptHashInput (ac_wireFormat ac) (ac_content ac) (ad_signature (ac_auth ac))) /\ short (ad_confirmationTag (ac_auth ac))).
Proof.
  intros R. pose proof (rc_size _ _ _ R) as S. destruct (rc_authentic _ _ _ R) as (_ & _ & li & leaf & Hs & _).
  unfold short, enc_confirmedTranscriptHashInput, enc_authenticatedContent in *.
  assert (E : enc_authenticatedContentTBM (ac_wireFormat ac) (ac_content ac) (gr_context g) (ac_auth ac) =
    (num 2 1 ++ num 2 (ac_wireFormat ac) ++ enc_framedContent (ac_content ac) ++ enc_groupContext (gr_context g)) ++ enc_authData (fc_body (ac_content ac)) (ac_auth ac)) by (unfold enc_authenticatedContentTBM, enc_framedContentTBS; now rewrite Hs).
  assert (E2 : enc_framedContentTBS (ac_wireFormat ac) (ac_content ac) (gr_context g) = num 2 1 ++ num 2 (ac_wireFormat ac) ++ enc_framedContent (ac_content ac) ++ enc_groupContext (gr_context g)) by (unfold enc_framedContentTBS; now rewrite Hs).
  rewrite E2. rewrite E in *. rewrite !lenN_app, !lenN_num in *. splits; try lia. intros c Hb. unfold enc_authData in S. rewrite Hb in S. rewrite !lenN_app in S.
  pose proof (vec_len (ad_confirmationTag (ac_auth ac))). split; lia.
Qed.

(** ** The code reads what was made *)
Lemma opens_sealed cs key nonce aad ct pt : known_suite cs -> lenN key = keySize cs -> lenN nonce = nonceSize cs ->
  opened cs key nonce aad ct = Some pt -> aeadOpen cs key nonce aad ct = Ok pt.
Proof.
  intros Kn Hk Hn H. destruct (describe_known _ Kn) as (d & Hd). unfold aeadOpen. rewrite Hd. cbn [rbind]. apply describe_some in Hd.
  unfold keySize, nonceSize, opened in *. rewrite (aeadOf_some _ _ Hd) in *. rewrite Hk, Hn, !N.eqb_refl. cbn [negb]. now rewrite H.
Qed.
Lemma lenN_xor : forall n x, lenN (xor_guard n x) = lenN n.
Proof. induction n as [|b n IH]; intros [|x xs]; cbn [xor_guard]; try reflexivity. unfold lenN in *. cbn [length]. specialize (IH xs). lia. Qed.

Lemma delivered_carries g raw ac : crypto_ok C -> known_suite (gc_cipherSuite (gr_context g)) -> delivered g raw ac ->
  carries g raw ac /\ forall m, unmarshal getMlsMessage raw = Ok (MPublic m) -> membership_tagged g m.
Proof.
  intros OK Kn [M Wf (_ & _ & li & leaf & Hs & _) Hsz Hraw]. assert (Hr30 : lenN raw < 2 ^ 30) by lia.
  destruct M as [c a ->|c a k sd padding m Sh Hl Wsd P ->]; cbn [ac_content ac_auth ac_wireFormat] in *.
  - set (m := mkPublicMessage c a (membership_tag (gr_context g) (gr_epochSecret g) c a)) in *. destruct Wf as (_ & Wc & Wa).
    assert (Wm : wf_mlsMessage (MPublic m)) by (cbn [wf_mlsMessage]; split; [exact Wc|split; [exact Wa|]]; cbn [m pubm_content]; now rewrite Hs).
    pose proof (unmarshal_mls _ _ Wm (fills_mlsMessage _ Wm Hr30)) as U. split; [exact (carries_public g _ m U)|].
    intros m' U'. assert (m' = m) by congruence. subst m'. reflexivity.
  - destruct P as [P1 P2 P3 P4 P5 P6 P7]. destruct Wf as (_ & Wc & Wa). pose proof Wsd as (W1 & W2 & W3).
    cbn [ac_content ac_auth] in Wc, Wa.
    assert (We : u64 (fc_epoch c) /\ wf_body (fc_body c)) by (split; apply Wc).
    assert (Ht : In (content_type (fc_body c)) [1; 2; 3]) by (destruct (fc_body c); cbn; auto).
    assert (Wm : wf_mlsMessage (MPrivate m)) by (cbn [wf_mlsMessage]; split; [rewrite P3; apply We|now rewrite P4]).
    pose proof (unmarshal_mls _ _ Wm (fills_mlsMessage _ Wm Hr30)) as U. split; [|intros m' U'; congruence].
    pose proof Sh as [[Hk Hn] _]. unfold gr_value, deref in Hn. rewrite lenN_map in Hn.
    destruct (designated_path k (sd_leafIndex sd) Hk) as (_ & Hp1 & Hp2).
    { rewrite leaf_position_designated. pose proof (leafPath_number k _ Hl) as X. pose proof (number_lt k _ (leafPath_in k (designated (sd_leafIndex sd)))). lia. }
    unfold enc_authenticatedContentTBM, enc_framedContentTBS, enc_framedContent in Hsz. rewrite !lenN_app, !lenN_num in Hsz.
    assert (E : c = mkFramedContent (privm_groupID m) (privm_epoch m) (SMember (sd_leafIndex sd)) (privm_authenticatedData m) (pmc_body (mkPrivateMessageContent (fc_body c) a))).
    { cbn [pmc_body]. rewrite P2, P3, P5, <- P1. now destruct c. }
    rewrite E at 1. change a with (pmc_auth (mkPrivateMessageContent (fc_body c) a)) at 2.
    refine (carries_private g _ m (sender_data_secret (gr_context g) (gr_epochSecret g)) sd
      (mkRatchetSecret (content_secret (gr_context g) (gr_epochSecret g) (leafPath k (designated (sd_leafIndex sd))) (fc_body c) (sd_generation sd)) (sd_generation sd))
      (mkPrivateMessageContent (fc_body c) a) U _ _ _ _).
    + apply gives_deriveSecret. split; [exact Kn|vm_compute; reflexivity].
    + unfold decryptSenderData. rewrite (proj2 (gives_senderDataKey _ _ _) Kn). cbn [rbind]. rewrite (proj2 (gives_senderDataNonce _ _ _) Kn). cbn [rbind].
      assert (Za : lenN (enc_senderDataAAD (privm_groupID m) (privm_epoch m) (privm_contentType m)) < 2 ^ 30).
      { rewrite P2, P3, P4. unfold enc_senderDataAAD. rewrite !lenN_app, !lenN_num. lia. }
      rewrite (fills_senderDataAAD _ _ _ Za). cbn [rbind]. rewrite P2, P3, P4.
      rewrite (opens_sealed _ _ _ _ _ (enc_senderData sd) Kn); [|unfold sender_data_key, ExpandWithLabel; apply (ok_expand _ OK)|unfold sender_data_nonce, ExpandWithLabel; apply (ok_expand _ OK)|exact P7].
      cbn [rbind]. apply unmarshal_ok. rewrite <- (app_nil_r (enc_senderData sd)). apply senderData_RT; [exact Wsd|].
      apply fills_senderData. unfold enc_senderData. rewrite !lenN_app, !lenN_num, W3. vm_compute. reflexivity.
    + rewrite P4. apply (gives_messageSecret g k _ (sd_leafIndex sd) (fc_body c) (sd_generation sd) Hk Hn Hp1 Hp2 W2). exact Kn.
    + assert (Zn : lenN (sd_reuseGuard sd) <= lenN (ratchet_nonce (gc_cipherSuite (gr_context g)) (content_secret (gr_context g) (gr_epochSecret g) (leafPath k (designated (sd_leafIndex sd))) (fc_body c) (sd_generation sd)) (sd_generation sd))).
      { rewrite W3. unfold ratchet_nonce, DeriveTreeSecret, ExpandWithLabel. rewrite (ok_expand _ OK). unfold nonceSize. destruct (aeadOf _); vm_compute; discriminate. }
      assert (Za : lenN (enc_privateContentAAD (privm_groupID m) (privm_epoch m) (privm_contentType m) (privm_authenticatedData m)) < 2 ^ 30).
      { rewrite P2, P3, P4, P5. unfold enc_privateContentAAD. rewrite !lenN_app, !lenN_num. lia. }
      assert (Zp : lenN (enc_privateMessageContent (mkPrivateMessageContent (fc_body c) a)) < 2 ^ 30).
      { unfold enc_privateMessageContent. cbn [pmc_body pmc_auth]. rewrite lenN_app. lia. }
      assert (Wp : wf_privateMessageContent (mkPrivateMessageContent (fc_body c) a)) by (split; [apply We|exact Wa]).
      eapply padding_zero; [exact (proj2 (gives_keyAndNonce _ _ _ _) (conj Kn Zn))|exact (fills_privateContentAAD _ _ _ _ Za)|exact Wp|exact (fills_privateMessageContent _ Wp Zp)|rewrite P4; apply content_type_eq|].
      rewrite P2, P3, P4, P5, <- (zeroes_repeat (N.to_nat padding)), N2Nat.id. apply opens_sealed; [exact Kn| | |exact P6].
      * unfold ratchet_key, DeriveTreeSecret, ExpandWithLabel. apply (ok_expand _ OK).
      * rewrite lenN_xor. unfold ratchet_nonce, DeriveTreeSecret, ExpandWithLabel. apply (ok_expand _ OK).
Qed.
Lemma delivered_received g raw ac : crypto_ok C -> known_suite (gc_cipherSuite (gr_context g)) -> delivered g raw ac -> received g raw ac.
Proof. intros OK Kn D. destruct (delivered_carries _ _ _ OK Kn D) as [H1 H2]. constructor; auto; apply D. Qed.

(** ** What the message is *)
Lemma received_verified g raw ac : known_suite (gc_cipherSuite (gr_context g)) -> received g raw ac ->
  (exists m, unmarshal getMlsMessage raw = Ok (MPublic m) /\ verifyPublicMessage g m = Ok ac) \/
  (exists m, unmarshal getMlsMessage raw = Ok (MPrivate m) /\ openPrivateMessage g m = Ok ac).
Proof.
  intros Kn R. pose proof (size_parts _ _ _ R) as (Z1 & Z2 & _). destruct R as [Rc (A1 & A2 & li & leaf & A3 & A4 & A5) Rt _].
  destruct (carries_wf _ _ _ Rc) as [Wf _].
  assert (Hl : getLeaf (gr_value g) li = Ok (Some leaf)) by (apply getLeaf_some; exact A4).
  assert (Hv : authContentVerifySignature ac (ln_signatureKey leaf) (gr_context g) = Ok true).
  { unfold authContentVerifySignature. apply (put_verify _ _ _ _ _ _ (writes_framedContentTBS _ _ _)); [vm_compute; reflexivity|]. split; [|exact A5].
    eapply can_encode_fits; [apply fills_framedContentTBS; exact Wf|exact Z1]. }
  destruct Rc as [m Hm|m sds sd secret pc Hm Es Ed Em Ec]; cbn [ac_content ac_auth ac_wireFormat fc_sender fc_groupID fc_epoch fc_body] in *.
  - left. exists m. split; [exact Hm|]. unfold verifyPublicMessage. rewrite (proj2 (bytes_eqb_true _ _) A1). cbn [guard rbind]. rewrite (proj2 (N.eqb_eq _ _) A2). cbn [guard rbind]. rewrite A3, Hl.
    cbn [rbind]. change (pubMsgAuthContent m) with (mkAuthenticatedContent 1 (pubm_content m) (pubm_auth m)). rewrite Hv. cbn [guard rbind].
    assert (Ek : deriveSecret (gc_cipherSuite (gr_context g)) (gr_epochSecret g) secretLabelMembership = Ok (DeriveSecret (gc_cipherSuite (gr_context g)) (gr_epochSecret g) (str "membership"))).
    { apply gives_deriveSecret. split; [exact Kn|vm_compute; reflexivity]. }
    rewrite Ek. cbn [rbind].
    assert (Et : verifyMembershipTag (DeriveSecret (gc_cipherSuite (gr_context g)) (gr_epochSecret g) (str "membership")) (gr_context g) m = Ok true).
    { unfold verifyMembershipTag. rewrite A3. cbn [sender_isMember negb]. change wireFormatMLSPublicMessage with 1. rewrite (fills_authenticatedContentTBM 1 _ _ _ Wf Z2). cbn [falseOnPutErr].
      apply verifyMAC_iff; [exact Kn|]. apply (Rt m Hm). }
    rewrite Et. reflexivity.
  - right. exists m. split; [exact Hm|]. unfold openPrivateMessage. rewrite (proj2 (bytes_eqb_true _ _) A1). cbn [guard rbind]. rewrite (proj2 (N.eqb_eq _ _) A2). cbn [guard rbind].
    change secretLabelSenderData with (str "sender data"). rewrite Es. cbn [rbind]. rewrite Ed. cbn [rbind]. rewrite Em. cbn [rbind]. rewrite Ec. cbn [rbind].
    injection A3 as A3. subst li. rewrite Hl. cbn [rbind].
    change (privMsgAuthContent m sd pc) with (mkAuthenticatedContent 2 (mkFramedContent (privm_groupID m) (privm_epoch m) (SMember (sd_leafIndex sd)) (privm_authenticatedData m) (pmc_body pc)) (pmc_auth pc)).
    rewrite Hv. reflexivity.
Qed.

Lemma received_commit g raw ac c now : known_suite (gc_cipherSuite (gr_context g)) -> received g raw ac -> fc_body (ac_content ac) = BCommit c ->
  unmarshalAndProcessMessage g raw now = noData (processCommit g ac [] [] now).
Proof.
  intros Kn R Hb. unfold unmarshalAndProcessMessage. destruct (received_verified _ _ _ Kn R) as [(m & -> & E)|(m & -> & E)].
  - unfold processPublicMessage. rewrite E, Hb. reflexivity.
  - unfold processPrivateMessage. rewrite E, Hb. reflexivity.
Qed.

(** ** Proposals and application data *)
Lemma carries_content_wf g raw ac : carries g raw ac -> wf_authenticatedContent ac.
Proof.
  intros H. destruct (carries_wf _ _ _ H) as [Wf _]. split; [destruct H; cbn; auto|]. split; [exact Wf|].
  destruct H as [m H|m sds sd secret pc H _ Hs _ Hc]; cbn [ac_content ac_auth].
  - apply unmarshal_mls_wf in H. apply H.
  - apply unmarshal_mls_wf in H. destruct H as [H Hct]. cbn [fc_body]. unfold decryptContent in Hc. rinv. subst.
    match goal with E : getPrivateMessageContent _ _ = _ |- _ => apply privateMessageContent_CAN in E; [apply E|exact Hct] end.
Qed.
Theorem proposals_accepted g raw ac p now : known_suite (gc_cipherSuite (gr_context g)) -> received g raw ac -> fc_body (ac_content ac) = BProposal p ->
  exists g' li, unmarshalAndProcessMessage g raw now = (g', Ok None) /\ fc_sender (ac_content ac) = SMember li /\
    same_but_pending g g' /\ gr_pending g' = gr_pending g ++ [mkPendingProposal (ProposalRef (gc_cipherSuite (gr_context g)) ac) p li].
Proof.
  intros Kn R Hb. pose proof (size_parts _ _ _ R) as (_ & _ & _ & Z & _). destruct (rc_authentic _ _ _ R) as (_ & _ & li & leaf & Hs & _).
  assert (Er : generateProposalRef (gc_cipherSuite (gr_context g)) ac = Ok (ProposalRef (gc_cipherSuite (gr_context g)) ac)).
  { eapply gives_proposalRef; [exact (carries_content_wf _ _ _ (rc_carries _ _ _ R))|exact Hb|split; assumption]. }
  assert (Ep : processProposal g ac = (withPending g (gr_pending g ++ [mkPendingProposal (ProposalRef (gc_cipherSuite (gr_context g)) ac) p li]), Ok tt)).
  { unfold processProposal. rewrite Hb, Er, Hs. reflexivity. }
  exists (withPending g (gr_pending g ++ [mkPendingProposal (ProposalRef (gc_cipherSuite (gr_context g)) ac) p li])), li.
  split; [|splits; auto; reflexivity].
  unfold unmarshalAndProcessMessage. destruct (received_verified _ _ _ Kn R) as [(m & -> & E)|(m & -> & E)].
  - unfold processPublicMessage. rewrite E, Hb, Ep. reflexivity.
  - unfold processPrivateMessage. rewrite E, Hb, Ep. reflexivity.
Qed.
Theorem data_accepted g raw ac d now m : known_suite (gc_cipherSuite (gr_context g)) -> received g raw ac -> fc_body (ac_content ac) = BApplication d ->
  unmarshal getMlsMessage raw = Ok (MPrivate m) -> unmarshalAndProcessMessage g raw now = (g, Ok (Some d)).
Proof.
  intros Kn R Hb Hm. unfold unmarshalAndProcessMessage. destruct (received_verified _ _ _ Kn R) as [(m' & E' & E)|(m' & E' & E)]; [congruence|].
  rewrite E'. unfold processPrivateMessage. now rewrite E, Hb.
Qed.

(** ** The proposals of a commit *)
Lemma check_accepts g ac c li ps : obtained g -> wf_commit c -> valid_commit g ac c li ps -> checkCommit g li c = Ok (map fst ps, map snd ps).
Proof.
  intros O Wc V. pose proof (commit_wf _ _ _ _ (obtained_inv _ O) Wc (vc_proposals _ _ _ _ _ V)) as Hps.
  unfold checkCommit. rewrite (proj2 (resolveProposals_spec _ _ _ _) (vc_proposals _ _ _ _ _ V)). cbn [rbind]. cbv zeta.
  rewrite (proj2 (verifyProposalList_ok _ li (wf_pskIds _ Hps)) (conj (vc_rule _ _ _ _ _ V) (vc_psks _ _ _ _ _ V))). cbn [rbind].
  assert (Ef : foldM (fun _ p => match p with PAdd k => keyPackageVerify k (gr_context g) | _ => Ok tt end) tt (map fst ps) = Ok tt).
  { pose proof (vc_adds _ _ _ _ _ V) as Ha. clear - Ha. induction ps as [|[p s] ps IH]; [reflexivity|]. cbn [map fst foldM].
    assert (E : match p with PAdd k => keyPackageVerify k (gr_context g) | _ => Ok tt end = Ok tt).
    { destruct p; try reflexivity. apply keyPackageVerify_addable. eapply Ha. left. reflexivity. }
    rewrite E. cbn [rbind]. apply IH. intros. eapply Ha. right. eauto. }
  rewrite Ef. cbn [rbind]. destruct (c_path c) as [up|] eqn:Ep; [now rewrite andb_false_r|].
  destruct (vc_path _ _ _ _ _ V Ep) as [Hne Hn]. rewrite andb_true_r. destruct (proposalListNeedsPath (map fst ps)) eqn:En; [|reflexivity].
  apply needsPath_spec in En. destruct En as [En|(p & Hin & Hp)]; [destruct ps; [contradiction|discriminate]|].
  apply in_map_iff in Hin. destruct Hin as ([q s] & <- & Hin). exfalso. exact (Hn _ _ Hin Hp).
Qed.

Lemma members_small g r : obtained g -> leaf_at (gr_value g) r <> None -> r < 2 ^ 31.
Proof.
  intros Ho H. destruct (sane_shape _ (obtained_sane _ Ho)) as [E|(k & Sh)]; [rewrite E in H; now rewrite no_member_nil in H|].
  pose proof (member_in_array k _ _ Sh H). pose proof (leaf_count_31 k (proj1 (shaped_full _ _ Sh))). lia.
Qed.
Lemma applies g ac c li ps : obtained g -> wf_commit c -> valid_commit g ac c li ps ->
  exists h t, applyH (gr_heap g) (gr_tree g) (map fst ps) (map snd ps) = Ok (h, t) /\ proper h t /\ vapply (gr_value g) (map fst ps) (map snd ps) = Ok (deref h t).
Proof.
  intros Ho Hw V. pose proof (vc_proposals _ _ _ _ _ V) as Hc. pose proof (commit_wf _ _ _ _ (obtained_inv _ Ho) Hw Hc) as Hps.
  destruct (vc_room _ _ _ _ _ V) as (n & Hn & Hroom). destruct (vc_rule _ _ _ _ _ V) as (_ & Hch & Hli & _). pose proof (vc_removes _ _ _ _ _ V) as Hr.
  pose proof (obtained_sane _ Ho) as Sa. pose proof (proj1 (sane_consistent _ Sa)) as Pr.
  destruct (vapply_succeeds (gr_value g) ps n (sane_shape _ Sa)) as (v & E); auto.
  - apply removals_NoDup; auto. intros. apply (members_small g); eauto.
  - intros s m Hin. apply in_flat_map in Hin. destruct Hin as ([p x] & Hp & Hin). cbn [fst snd] in Hin. destruct p; try easy. destruct Hin as [E|[]]. injection E as <- <-.
    assert (Hx : x <> li) by (intros ->; apply Hli; apply in_flat_map; eexists; split; [exact Hp|now left]).
    unfold commits in Hc. destruct (Forall2_in_r _ _ _ Hc _ Hp) as (por & _ & Hs). destruct por as [q|ref]; [injection Hs as _ E; congruence|].
    destruct Hs as (pp & (l1 & l2 & Hf & _) & Es). injection Es as Ep ->. pose proof (ci_pending _ (obtained_inv _ Ho)) as Hpend. rewrite Forall_forall in Hpend.
    destruct (Hpend pp) as [_ Hup]; [rewrite Hf; apply in_elt|]. eauto.
  - intros r Hin. apply in_flat_map in Hin. destruct Hin as ([p x] & Hp & Hin). cbn [fst snd] in Hin. destruct p; try easy. destruct Hin as [<-|[]].
    pose proof (Hr _ _ Hp) as Hm. rewrite designated_small by now apply (members_small g). exact Hm.
  - destruct (applyH_of_value _ _ _ _ _ Pr E) as (h & t & E' & V' & P'). exists h, t. splits; auto. fold (gr_value g) in *. now rewrite V'.
Qed.

(** ** The path *)
Lemma leaf_accepts cs gid t li up k m sigKeys : shaped k t -> lists_once t -> leaf_at t (designated li) = Some m -> wf_leafNode (up_leafNode up) ->
  sigKeys = filter (fun x => negb (bytes_eqb x (ln_signatureKey m))) (map (fun p => ln_signatureKey (snd p)) (allLeaves t)) ->
  path_checked cs gid t li up -> exists creds, supportedCreds t = Ok creds /\ forall now,
  leafNodeVerify (up_leafNode up) (mkVerifyOptions cs gid li creds sigKeys (map (fun p => ln_encryptionKey (snd p)) (allLeaves t)) now) = Ok tt.
Proof.
  intros Sh Lo Hm Wl -> (P1 & P2 & P3 & P4 & (m' & Hm' & P5) & P6). assert (m' = m) by congruence. subst m'.
  destruct (supportedCreds_spec k t Sh) as (creds & Ec & Hc); [now exists (designated li), m|exact Lo|]. exists creds. split; [exact Ec|]. intros now.
  unfold leafNodeVerify. cbn [vo_cipherSuite vo_groupID vo_leafIndex vo_supportedCreds vo_signatureKeys vo_encryptionKeys].
  rewrite (proj2 (leafNodeVerifySignature_spec _ _ _ _) P2). cbn [guard rbind].
  rewrite (proj2 (memN_In _ _) (proj2 (Hc _) (P4 Lo))). cbn [guard rbind].
  assert (El : ln_lifetime (up_leafNode up) = None) by (destruct Wl as (_ & _ & _ & [(E & _)|[(E & _)|(_ & E)]]); [congruence|congruence|exact E]).
  rewrite El. cbn [guard rbind].
  assert (Ee : forallb (fun e => memN (ext_type e) (caps_extensions (ln_capabilities (up_leafNode up)))) (ln_extensions (up_leafNode up)) = true).
  { apply forallb_forall. intros e He. apply memN_In. auto. }
  rewrite Ee. cbn [guard rbind].
  assert (Es : memB (ln_signatureKey (up_leafNode up)) (filter (fun x => negb (bytes_eqb x (ln_signatureKey m))) (map (fun p => ln_signatureKey (snd p)) (allLeaves t))) = false).
  { apply memB_false. intros H. apply filter_In in H. destruct H as [H1 H2]. apply in_map_iff in H1. destruct H1 as ([j l] & E & H1). apply (allLeaves_In k) in H1; [|apply shaped_full; exact Sh].
    cbn [snd] in E. apply (P5 j l H1); [|exact E]. rewrite E. intros X. rewrite X, (proj2 (bytes_eqb_true _ _) eq_refl) in H2. discriminate. }
  rewrite Es. cbn [guard rbind negb].
  assert (Ek : memB (ln_encryptionKey (up_leafNode up)) (map (fun p => ln_encryptionKey (snd p)) (allLeaves t)) = false).
  { apply memB_false. intros H. apply in_map_iff in H. destruct H as ([j l] & E & H). apply (allLeaves_In k) in H; [|apply shaped_full; exact Sh].
    cbn [snd] in E. apply (P6 (ln_encryptionKey (up_leafNode up)) j l); [now left|exact H|exact E]. }
  now rewrite Ek.
Qed.

Lemma path_accepts g ps li up k t t' new h pt now priv : crypto_ok C -> obtained g -> known_suite (gc_cipherSuite (gr_context g)) -> wf_leafNode (up_leafNode up) ->
  valid_path g ps li up k t t' new -> follows_path g li k t new ->
  proper h pt -> deref h pt = t -> carryPriv (length (gr_tree g)) (length pt) (gr_privTree g) = Ok priv ->
  exists h1 t1 z p1, processPath g li up h pt priv now = Ok (h1, t1, tree_hash (gc_cipherSuite (gr_context g)) k t' [] k [], z, p1) /\ deref h1 t1 = t'.
Proof.
  intros OK O Kn Wl V (F1 & F2 & F3 & F4) Pr D Ecp. destruct Kn as (d & Hd). pose proof (obtained_sane g O) as Sa. pose proof (obtained_state g O) as Mg.
  destruct V as [AP Sh Sh' LM Lo Ck (z0 & UP) (En & En' & Ep)].
  pose proof Ck as (P1 & _ & _ & _ & (m & Hm & _) & P6). destruct UP as [Mgd Sent].
  unfold processPath. cbv zeta. rewrite D. rewrite P1. change (3 =? leafNodeSourceCommit) with true. cbn [guard rbind].
  assert (Hg : getLeaf t li = Ok (Some m)).
  { assert (Hr : designated li < leaf_count k) by (eapply member_in_array; [exact Sh|congruence]).
    replace (getLeaf t li) with (getLeaf t (designated li)); [rewrite (getLeaf_at k) by assumption; now rewrite Hm|].
    unfold getLeaf. now rewrite (nodeIndexOf_designated li), (nodeIndexOf_designated (designated li)), (designated_small (designated li)) by apply designated_lt. }
  rewrite Hg. cbn [rbind]. rewrite (treeKeys_ok k) by assumption. cbn [rbind].
  destruct (leaf_accepts _ _ t li up k m _ Sh Lo Hm Wl eq_refl Ck) as (creds & Ec & Hv). rewrite Ec. cbn [rbind]. rewrite Hv. cbn [rbind].
  assert (Ef : forallb (fun n => negb (memB (upn_encryptionKey n) (map (fun p => ln_encryptionKey (snd p)) (allLeaves t)))) (up_nodes up) = true).
  { apply forallb_forall. intros n Hn. apply negb_true_iff, memB_false. intros H. apply in_map_iff in H. destruct H as ([j l] & E & H). apply (allLeaves_In k) in H; [|apply shaped_full; exact Sh].
    cbn [snd] in E. apply (P6 (upn_encryptionKey n) j l); [right; now apply in_map|exact H|exact E]. }
  rewrite Ef. cbn [guard rbind].
  destruct (mergeH_complete (gc_cipherSuite (gr_context g)) d k h pt li up t' OK) as (h1 & t1 & Em & E1); auto; [now rewrite <- suite_eq|now rewrite D|now rewrite D|now rewrite D|]. rewrite Em. cbn [rbind]. rewrite E1.
  rewrite (rootTreeHash_complete k _ t' d Sh' OK En') by now rewrite <- suite_eq. cbn [rbind].
  destruct (leaf_at (gr_value g) (gr_myLeafIndex g)) as [l|] eqn:El; [|now destruct (ms_in _ Mg)].
  destruct (leaf_at t (gr_myLeafIndex g)) as [l'|] eqn:El'; [|discriminate]. cbn [option_map] in F3. injection F3 as F3.
  apply holds_its_number in F2; [|exact Mg|exact (sane_shape _ Sa)].
  assert (PF : HoldFacts.parents_from (gr_value g) t) by (eapply HoldFacts.from_proposals; exact AP).
  assert (K : keys_by_number (gc_cipherSuite (gr_context g)) t priv (gr_myLeafIndex g)).
  { eapply carried; [exact F2|exact PF|right; now exists k|apply (ms_index _ Mg)|exact El|exact El'|exact F3|]. unfold gr_value. rewrite <- D, !length_deref. exact Ecp. }
  assert (Hr : gr_myLeafIndex g < leaf_count k) by (eapply member_in_array; [exact Sh|congruence]).
  apply (holds_number _ k) in K; [|exact Sh|exact Hr|apply (ms_index _ Mg)].
  destruct (decryptPathSecrets_ok (gc_cipherSuite (gr_context g)) k t t' new _ (designated li) (gr_myLeafIndex g) up z0 priv OK Sh LM Sh' (conj Mgd Sent) Hr F1) as (p' & Ed & _); [congruence|exact K|exact F4|].
  assert (Ed' : decryptPathSecrets (gc_cipherSuite (gr_context g)) t' (nextContext (gr_context g) (tree_hash (gc_cipherSuite (gr_context g)) k t' [] k []) (gc_confirmedTranscriptHash (gr_context g))) li (gr_myLeafIndex g) up priv = Ok (z0, p')).
  { rewrite <- Ed. unfold decryptPathSecrets. now rewrite (nodeIndexOf_designated li), (nodeIndexOf_designated (designated li)), (designated_small (designated li)) by apply designated_lt. }
  rewrite Ed'. cbn [rbind]. eauto 10.
Qed.

(** ** The new epoch *)
Lemma next_context_short ctx th cf : lenN (enc_groupContext ctx) < 2 ^ 27 -> lenN th <= 64 -> lenN cf <= 64 -> short (enc_groupContext (nextContext ctx th cf)).
Proof.
  intros H H1 H2. unfold short, enc_groupContext, nextContext in *. cbn [gc_version gc_cipherSuite gc_groupID gc_epoch gc_treeHash gc_confirmedTranscriptHash gc_extensions] in *.
  rewrite !lenN_app, !lenN_num in *. pose proof (vec_len_le th). pose proof (vec_len_le cf). lia.
Qed.
Lemma hashes_small d m : crypto_ok C -> lenN (cr_hash C (sd_hash d) m) <= 64.
Proof. intros OK. rewrite (ok_hash _ OK). destruct (sd_hash d); vm_compute; discriminate. Qed.
Lemma epoch_accepts g raw ac c th z : crypto_ok C -> known_suite (gc_cipherSuite (gr_context g)) -> received g raw ac -> fc_body (ac_content ac) = BCommit c ->
  lenN th <= 64 -> exists x, nextEpoch g ac th z [] [] = Ok x.
Proof.
  intros OK Kn R Hb Hth. pose proof (size_parts _ _ _ R) as (_ & _ & Zc & _ & Zb). destruct (Zb c Hb) as [Z1 Z2].
  destruct (carries_wf _ _ _ (rc_carries _ _ _ R)) as [Wf _]. unfold nextEpoch. cbv zeta.
  rewrite (proj2 (gives_confirmed _ _ _ _ _ Wf (ex_intro _ c Hb)) (conj Kn Z1)). cbn [rbind].
  rewrite (proj2 (gives_interim _ _ _) (conj Kn Z2)). cbn [rbind].
  assert (Hcf : lenN (confirmed_transcript_hash (gc_cipherSuite (gr_context g)) (gr_interimTranscriptHash g) (ac_wireFormat ac) (ac_content ac) (ad_signature (ac_auth ac))) <= 64).
  { unfold confirmed_transcript_hash, Hash. rewrite (ok_hash _ OK). destruct (hashOf _); vm_compute; discriminate. }
  pose proof (next_context_short _ _ _ Zc Hth Hcf) as Zn.
  match type of Zn with short (enc_groupContext ?x) => set (ctx' := x) in *; assert (Kn' : known_suite (gc_cipherSuite ctx')) by exact Kn; clearbody ctx' end.
  rewrite (proj2 (gives_joiner ctx' _ _) (conj Kn' Zn)). cbn [rbind].
  rewrite (proj2 (gives_pskSecret _ [] [] eq_refl) (conj Kn (Forall_nil _))). cbn [rbind].
  rewrite (proj2 (gives_epoch ctx' _ _) (conj Kn' Zn)). cbn [rbind].
  assert (Zi : short secretLabelInit) by (vm_compute; reflexivity).
  rewrite (proj2 (gives_deriveSecret _ _ _) (conj Kn Zi)). cbn [rbind]. eauto.
Qed.

Lemma tree_hash_small cs k t : crypto_ok C -> lenN (tree_hash cs k t [] k []) <= 64.
Proof.
  intros OK. assert (H : forall m, lenN (Hash cs m) <= 64) by (intros m; unfold Hash; rewrite (ok_hash _ OK); destruct (hashOf _); vm_compute; discriminate).
  destruct k; apply H.
Qed.

Theorem commits_accepted_if_valid g raw ac c li ps t' now : crypto_ok C -> obtained g -> known_suite (gc_cipherSuite (gr_context g)) ->
  received g raw ac -> valid_commit g ac c li ps -> valid_tree g c li ps t' ->
  exists g', unmarshalAndProcessMessage g raw now = (g', Ok None) /\ gr_value g' = t'.
Proof.
  intros OK O Kn R V T. pose proof (vc_body _ _ _ _ _ V) as Hb. pose proof (vc_sender _ _ _ _ _ V) as Hs.
  rewrite (received_commit _ _ _ _ now Kn R Hb). destruct (carries_wf _ _ _ (rc_carries _ _ _ R)) as [Wf _].
  assert (Wc : wf_commit c). { unfold wf_framedContent in Wf. rewrite Hb in Wf. apply Wf. }
  pose proof (obtained_sane g O) as Sa.
  destruct (applies _ _ _ _ _ O Wc V) as (h & t & Ea & Pr & Ev). pose proof (vapply_one_by_one _ _ _ (sane_shape _ Sa) Ev) as AP.
  destruct (carryPriv_ok (length (gr_tree g)) (length t) (gr_privTree g) (proj2 (sane_consistent _ Sa))) as (p & Ecp & _).
  assert (F : exists g', finishCommit g ac c h t [] [] now = Ok g' /\ gr_value g' = t').
  { unfold finishCommit. cbv zeta. rewrite Ecp. cbn [rbind]. rewrite (proj2 (gives_extractSize _) Kn). cbn [rbind]. unfold valid_tree in T.
    destruct (c_path c) as [up|] eqn:Ep.
    - destruct T as (k & t0 & new & VP & FP). assert (t0 = deref h t) by (eapply after_proposals_fun; [apply (vp_tree _ _ _ _ _ _ _ _ VP)|exact AP]). subst t0.
      assert (Wl : wf_leafNode (up_leafNode up)) by (unfold wf_commit in Wc; rewrite Ep in Wc; apply Wc).
      destruct (path_accepts g ps li up k (deref h t) t' new h t now p OK O Kn Wl VP FP Pr eq_refl Ecp) as (h1 & t1 & z & p1 & Epp & E1).
      rewrite Hs. cbn [sender_leafIndex]. rewrite Epp. cbn [rbind].
      destruct (epoch_accepts g raw ac c (tree_hash (gc_cipherSuite (gr_context g)) k t' [] k []) z OK Kn R Hb (tree_hash_small _ _ _ OK)) as ([[[[x1 x2] x3] x4] x5] & ->).
      cbn [rbind]. eexists. split; [reflexivity|exact E1].
    - destruct T as [AP' En]. assert (t' = deref h t) as -> by (eapply after_proposals_fun; [exact AP'|exact AP]).
      assert (W : well_shaped (deref h t)) by exact (vapply_shape _ _ _ _ (sane_shape _ Sa) Ev).
      destruct W as [W|(k & Sh)].
      { exfalso. assert (Nn : proposalListNeedsPath (map fst ps) = false).
        { destruct (vc_path _ _ _ _ _ V Ep) as [Hne Hn]. destruct (proposalListNeedsPath (map fst ps)) eqn:X; [|reflexivity]. apply needsPath_spec in X.
          destruct X as [X|(q & Hin & Hq)]; [destruct ps; [contradiction|discriminate]|]. apply in_map_iff in Hin. destruct Hin as ([q' s] & <- & Hin). exfalso. exact (Hn _ _ Hin Hq). }
        exact (apply_keeps _ _ _ _ _ (sane_shape _ Sa) (ms_index _ (obtained_state g O)) Nn Ev (ms_in _ (obtained_state g O)) ltac:(rewrite W; apply no_member_nil)). }
      destruct Kn as (d & Hd). rewrite (rootTreeHash_complete k _ _ d Sh OK En) by now rewrite <- suite_eq. cbn [rbind].
      match goal with |- context [nextEpoch g ac ?th ?z [] []] => destruct (epoch_accepts g raw ac c th z OK (ex_intro _ d Hd) R Hb (tree_hash_small _ _ _ OK)) as ([[[[x1 x2] x3] x4] x5] & ->) end.
      cbn [rbind]. eexists. split; reflexivity. }
  destruct F as (g' & Hf & Hv). exists g'. split; [|exact Hv]. unfold processCommit. rewrite Hb, Hs. cbn [sender_leafIndex].
  rewrite (check_accepts _ _ _ _ _ O Wc V), Ea, Hf. reflexivity.
Qed.

(** ** In terms of what was made *)
Theorem valid_commits_accepted g raw ac c li ps t' now : crypto_ok C -> obtained g -> known_suite (gc_cipherSuite (gr_context g)) ->
  delivered g raw ac -> valid_commit g ac c li ps -> valid_tree g c li ps t' ->
  exists g', unmarshalAndProcessMessage g raw now = (g', Ok None) /\ gr_value g' = t'.
Proof. intros OK O Kn D. apply commits_accepted_if_valid; auto. now apply delivered_received. Qed.
Theorem valid_proposals_accepted g raw ac p now : crypto_ok C -> known_suite (gc_cipherSuite (gr_context g)) ->
  delivered g raw ac -> fc_body (ac_content ac) = BProposal p ->
  exists g' li, unmarshalAndProcessMessage g raw now = (g', Ok None) /\ fc_sender (ac_content ac) = SMember li /\
    same_but_pending g g' /\ gr_pending g' = gr_pending g ++ [mkPendingProposal (ProposalRef (gc_cipherSuite (gr_context g)) ac) p li].
Proof. intros OK Kn D. apply proposals_accepted; auto. now apply delivered_received. Qed.
Theorem valid_data_accepted g raw ac d now : crypto_ok C -> known_suite (gc_cipherSuite (gr_context g)) ->
  delivered g raw ac -> fc_body (ac_content ac) = BApplication d -> ac_wireFormat ac = 2 ->
  unmarshalAndProcessMessage g raw now = (g, Ok (Some d)).
Proof.
  intros OK Kn D Hb Hw. pose proof (delivered_received _ _ _ OK Kn D) as R. pose proof (rc_carries _ _ _ R) as Hc.
  assert (M : exists m, unmarshal getMlsMessage raw = Ok (MPrivate m)) by (destruct Hc; [discriminate Hw|eauto]). destruct M as (m & M).
  eapply data_accepted; eauto.
Qed.
End WithCrypto.
