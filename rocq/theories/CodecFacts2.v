(** Ratchet tree codec, panic freedom of the encoders, injectivity of the
    to-be-signed encodings. *)
From Verif Require Export CodecFacts Crypto.

(** ** Powers of two *)
Lemma isPowerOf2_spec x : isPowerOf2 x = true <-> exists d, x = 2 ^ d.
Proof.
  unfold isPowerOf2. rewrite andb_true_iff, negb_true_iff, N.eqb_neq, N.eqb_eq. split.
  - intros [Hx Hl]. exists (N.log2 x).
    pose proof (N.log2_spec x ltac:(lia)) as [H1 H2].
    destruct (N.eq_dec x (2 ^ N.log2 x)) as [E|E]; auto. exfalso.
    assert (Hlog : N.log2 (x - 1) = N.log2 x).
    { apply N.log2_unique; [lia|]. lia. }
    assert (Hb : N.testbit (N.land x (x - 1)) (N.log2 x) = true).
    { rewrite N.land_spec, N.bit_log2 by assumption. rewrite <- Hlog. rewrite N.bit_log2; [reflexivity|].
      assert (2 ^ N.log2 x <> 0) by (apply N.pow_nonzero; lia). lia. }
    rewrite Hl, N.bits_0 in Hb. discriminate.
  - intros [d ->]. split; [apply N.pow_nonzero; lia|].
    rewrite <- N.pred_sub, <- N.ones_equiv, N.land_ones. apply N.mod_same, N.pow_nonzero; lia.
Qed.

Lemma pow2_lt_inv a b : 2 ^ a < 2 ^ b -> a < b.
Proof. intros H. apply N.pow_lt_mono_r_iff in H; lia. Qed.
Lemma pow2_pos d : 0 < 2 ^ d.
Proof. assert (2 ^ d <> 0) by (apply N.pow_nonzero; lia). lia. Qed.
Lemma pow2_le a b : a <= b -> 2 ^ a <= 2 ^ b.
Proof. apply N.pow_le_mono_r. lia. Qed.
Lemma pow2_S d : 2 ^ (d + 1) = 2 * 2 ^ d.
Proof. rewrite N.add_1_r, N.pow_succ_r'. reflexivity. Qed.

(** ** The padding loop finds the next power of two *)
Lemma padCount_spec fuel : forall k d,
  k + 1 <= 2 ^ d -> 2 ^ d <= k + 1 + N.of_nat fuel -> k + 1 + N.of_nat fuel < 2^32 ->
  (forall d', 2 ^ d' < 2 ^ d -> 2 ^ d' < k + 1) ->
  padCount fuel k = Ok (N.to_nat (2 ^ d - 1 - k)).
Proof.
  induction fuel as [|f IH]; intros k d H1 H2 H3 H4.
  - cbn [padCount]. assert (E : 2 ^ d = k + 1) by lia.
    rewrite N.mod_small by lia. rewrite (proj2 (isPowerOf2_spec (k + 1))) by (exists d; auto).
    f_equal. lia.
  - cbn [padCount]. rewrite N.mod_small by lia. destruct (isPowerOf2 (k + 1)) eqn:E.
    + apply isPowerOf2_spec in E. destruct E as [d' E]. f_equal.
      destruct (N.lt_ge_cases (2 ^ d') (2 ^ d)) as [Hlt|Hge]; [apply H4 in Hlt; lia|lia].
    + assert (Hne : 2 ^ d <> k + 1).
      { intros Heq. assert (isPowerOf2 (k + 1) = true) by (apply isPowerOf2_spec; exists d; auto). congruence. }
      rewrite (IH (k + 1) d); try lia.
      * cbn. f_equal. lia.
      * intros d' Hd'. apply H4 in Hd'. lia.
Qed.

(** The next power of two above [k+1], within [2k+1] *)
Lemma next_pow2 k : exists d, k + 1 <= 2 ^ d /\ 2 ^ d <= 2 * k + 1 /\ forall d', 2 ^ d' < 2 ^ d -> 2 ^ d' < k + 1.
Proof.
  destruct (N.eq_dec k 0) as [->|Hk].
  - exists 0. cbn. split; [lia|]. split; [lia|]. intros d' H. pose proof (pow2_pos d'). change (2 ^ 0) with 1 in *. lia.
  - exists (N.log2 k + 1). pose proof (N.log2_spec k ltac:(lia)) as [H1 H2]. rewrite <- N.add_1_r in H2.
    split; [lia|]. split; [rewrite pow2_S; lia|].
    intros d' Hd. apply pow2_lt_inv in Hd. assert (2 ^ d' <= 2 ^ N.log2 k) by (apply pow2_le; lia). lia.
Qed.

Lemma padCount_ok {A} (l : list A) (H : lenN l < 2^30) : exists d,
  padCount (length l) (lenN l) = Ok (N.to_nat (2 ^ d - 1 - lenN l)) /\
  lenN l + 1 <= 2 ^ d /\ (forall d', 2 ^ d' < 2 ^ d -> 2 ^ d' < lenN l + 1) /\ 2 ^ d <= 2 * lenN l + 1.
Proof.
  destruct (next_pow2 (lenN l)) as (d & H1 & H2 & H3). exists d.
  change (N.of_nat (length l)) with (lenN l) in *.
  split; [|auto]. apply padCount_spec; auto; change (N.of_nat (length l)) with (lenN l); lia.
Qed.

(** ** trimBlanks *)
Lemma trimBlanks_app t : exists k, t = trimBlanks t ++ repeat None k.
Proof.
  induction t as [|o t (k & IH)]; [exists O; reflexivity|]. cbn.
  destruct (trimBlanks t) as [|a r] eqn:E.
  - destruct o; [exists k; cbn; cbn in IH; now rewrite <- IH|]. exists (S k). cbn. cbn in IH. now rewrite <- IH.
  - exists k. destruct o; cbn; now rewrite <- app_comm_cons in IH; rewrite IH at 1.
Qed.

Lemma trimBlanks_nonblank t i n : nth_error t i = Some (Some n) -> (i < length (trimBlanks t))%nat.
Proof.
  destruct (trimBlanks_app t) as [k E]. intros H. rewrite E in H.
  destruct (Nat.lt_ge_cases i (length (trimBlanks t))); auto.
  rewrite nth_error_app2 in H by assumption.
  assert (Hin : In (Some n) (@repeat (option node) None k)) by (eapply nth_error_In; eauto).
  apply repeat_spec in Hin. discriminate.
Qed.

Lemma trimBlanks_repeat l k : trimBlanks (l ++ repeat None k) = trimBlanks l.
Proof.
  induction l as [|o l IH]; cbn.
  - induction k; cbn; auto. now rewrite IHk.
  - now rewrite IH.
Qed.

(** The last slot is not blank. *)
Definition endsNonBlank (l : ratchetTree) : Prop := match rev l with None :: _ => False | _ => True end.

Lemma trimBlanks_id l : endsNonBlank l -> trimBlanks l = l.
Proof.
  unfold endsNonBlank. induction l as [|o l IH]; [reflexivity|]. cbn. intros H.
  destruct l as [|o' l'].
  - destruct o; auto. destruct H.
  - rewrite IH.
    + destruct o; reflexivity.
    + destruct (rev (o' :: l')) eqn:E.
      * apply (f_equal (@length _)) in E. rewrite rev_length in E. discriminate.
      * cbn in H. exact H.
Qed.

(** ** Tree codec *)
Lemma putOptionalNode_nonempty o e : putOptionalNode o = Ok e -> e <> [].
Proof.
  destruct o; cbn [putOptionalNode]; intros H He; subst.
  - apply wapp_ok in H. destruct H as (a & b & Ha & Hb & E). unfold writeOptional in Ha.
    symmetry in E. apply app_eq_nil in E. destruct E as [-> _]. discriminate.
  - discriminate.
Qed.

Lemma writeAll_len {A} (w : A -> W) l e : (forall x e, w x = Ok e -> e <> []) ->
  writeAll w l = Ok e -> lenN l <= lenN e.
Proof.
  intros Hw. revert e. induction l as [|x l IH]; cbn; intros e H.
  - unfold lenN; cbn; lia.
  - apply wapp_ok in H. destruct H as (a & b & Ha & Hb & ->). apply IH in Hb. apply Hw in Ha.
    rewrite lenN_app. unfold lenN in *. cbn. destruct a; [congruence|]. cbn. lia.
Qed.

Lemma writeVector_inv {A} (w : A -> W) l e : writeVector w l = Ok e ->
  exists c, writeAll w l = Ok c /\ lenN c < 2^30.
Proof.
  unfold writeVector. destruct (writeAll w l) as [c| | |] eqn:E; try discriminate. intros H.
  exists c. split; auto. now apply writeOpaqueVec_ok in H.
Qed.

Lemma putRatchetTree_len l e : writeVector putOptionalNode l = Ok e -> lenN l < 2^30.
Proof.
  intros H. apply writeVector_inv in H. destruct H as (c & Hc & Hl).
  apply writeAll_len in Hc; [lia|]. exact putOptionalNode_nonempty.
Qed.

Lemma ratchetTree_rt t e rest : wf_ratchetTree t -> putRatchetTree t = Ok e -> getRatchetTree (e ++ rest) = (Ok t, rest).
Proof.
  intros [Hw Hs] He. unfold putRatchetTree in He. unfold getRatchetTree.
  destruct (trimBlanks_app t) as [k Hk]. set (l := trimBlanks t) in *.
  assert (Hwl : Forall wf_optionalNode l) by (rewrite Hk in Hw; now apply Forall_app in Hw).
  erewrite rd_bind_eq; [|eapply readVector_RT; [exact optionalNode_RT|auto with safe|exact Hwl|exact He]].
  pose proof (putRatchetTree_len _ _ He) as Hlen.
  destruct (padCount_ok l Hlen) as (d & -> & H1 & H2 & H3).
  cut (N.to_nat (2 ^ d - 1 - lenN l) = k); [intros ->; now rewrite <- Hk|].
  assert (Hlt : lenN t = lenN l + N.of_nat k).
  { rewrite Hk at 1. rewrite lenN_app. unfold lenN at 2. rewrite repeat_length. reflexivity. }
  destruct Hs as [->|(d0 & Hd0 & i & n & Hn & Hi)].
  - subst l. cbn in *. assert (k = O) by (destruct k; auto; discriminate). subst k.
    destruct (N.eq_dec d 0) as [->|Hd]; [reflexivity|].
    assert (2 ^ 0 < 2 ^ d) by (apply N.pow_lt_mono_r; lia). change (lenN []) with 0 in *. change (2 ^ 0) with 1 in *. lia.
  - apply trimBlanks_nonblank in Hn. fold l in Hn.
    assert (Hl1 : 2 ^ d0 - 1 < lenN l) by (unfold lenN; lia).
    pose proof (pow2_pos d0). pose proof (pow2_S d0).
    assert (Hd : 2 ^ d = 2 ^ (d0 + 1)).
    { assert (~ 2 ^ d < 2 ^ (d0 + 1)).
      { intros Hx. apply pow2_lt_inv in Hx. assert (2 ^ d <= 2 ^ d0) by (apply pow2_le; lia). lia. }
      assert (~ 2 ^ (d0 + 1) < 2 ^ d).
      { intros Hx. apply H2 in Hx. lia. }
      lia. }
    lia.
Qed.

(** Padding [l] yields the smallest full tree that can hold [l]. *)
Lemma ratchetTree_dec s t rest : getRatchetTree s = (Ok t, rest) ->
  exists l e d, writeVector putOptionalNode l = Ok e /\ s = e ++ rest /\ Forall wf_optionalNode l /\
    t = l ++ repeat None (N.to_nat (2 ^ d - 1 - lenN l)) /\ lenN t + 1 = 2 ^ d /\
    (forall d', 2 ^ d' < 2 ^ d -> 2 ^ d' < lenN l + 1) /\ lenN l < 2^30.
Proof.
  unfold getRatchetTree. intros H. apply rd_bind_ok in H. destruct H as (l & s' & Hl & H).
  apply (readVector_CANT _ _ _ optionalNode_CANT) in Hl. destruct Hl as (Hw & e & He & ->).
  pose proof (putRatchetTree_len _ _ He) as Hlen.
  destruct (padCount_ok l Hlen) as (d & E & H1 & H2 & H3). rewrite E in H. inversion H; subst. clear H.
  exists l, e, d. splits; auto. rewrite lenN_app. unfold lenN at 2. rewrite repeat_length. lia.
Qed.

Lemma ratchetTree_SAFE : SAFE getRatchetTree.
Proof.
  intros s. unfold getRatchetTree, rd_bind.
  pose proof (readVector_SAFE _ optionalNode_SAFE s) as HS.
  destruct (readVector getOptionalNode s) as [[l|e|p|] s'] eqn:E; auto.
  apply (readVector_CANT _ _ _ optionalNode_CANT) in E. destruct E as (Hw & e & He & ->).
  pose proof (putRatchetTree_len _ _ He) as Hlen.
  destruct (padCount_ok l Hlen) as (d & Ep & _). rewrite Ep. cbn. exact HS.
Qed.

(** ** Encoders of well-formed values never panic *)
Create HintDb wsafe.
Lemma addUint8_nc n : no_crash (addUint8 n). Proof. exact I. Qed.
Lemma addUint16_nc n : no_crash (addUint16 n). Proof. exact I. Qed.
Lemma addUint32_nc n : no_crash (addUint32 n). Proof. exact I. Qed.
Lemma addUint64_nc n : no_crash (addUint64 n). Proof. exact I. Qed.
Lemma writeOptional_nc b : no_crash (writeOptional b). Proof. exact I. Qed.
Lemma Ok_nc {A} (b : A) : no_crash (Ok b). Proof. exact I. Qed.
#[export] Hint Resolve addUint8_nc addUint16_nc addUint32_nc addUint64_nc writeOptional_nc Ok_nc
  writeOpaqueVec_no_crash : wsafe.

Ltac wsafe :=
  repeat match goal with
  | |- no_crash (_ +++ _) => apply wapp_no_crash
  | |- no_crash (if ?b then _ else _) => destruct b eqn:?
  end; auto with wsafe.

Lemma vec_nc {A} (w : A -> W) (wf : A -> Prop) l : (forall x, wf x -> no_crash (w x)) -> Forall wf l -> no_crash (writeVector w l).
Proof. intros H. apply writeVector_WSAFE. exact H. Qed.
Lemma u16vec_nc l : no_crash (writeVector addUint16 l).
Proof. apply (vec_nc _ (fun _ => True)); auto with wsafe. Qed.
Lemma u32vec_nc l : no_crash (writeVector addUint32 l).
Proof. apply (vec_nc _ (fun _ => True)); auto with wsafe. Qed.
Lemma opaquevec_nc l : no_crash (writeVector writeOpaqueVec l).
Proof. apply (vec_nc _ (fun _ => True)); auto with wsafe. Qed.
#[export] Hint Resolve u16vec_nc u32vec_nc opaquevec_nc : wsafe.

Lemma credential_nc c : wf_credential c -> no_crash (putCredential c).
Proof.
  intros [[H _]|[H _]]; unfold putCredential; rewrite H; tagb; wsafe.
Qed.
Lemma extensionVec_nc l : no_crash (putExtensionVec l).
Proof.
  apply (vec_nc _ (fun _ => True)); auto. intros x _. unfold putExtension. wsafe.
Qed.
Lemma capabilities_nc c : no_crash (putCapabilities c).
Proof. unfold putCapabilities. wsafe. Qed.
#[export] Hint Resolve credential_nc extensionVec_nc capabilities_nc : wsafe.
Lemma leafNodeBase_nc l : wf_leafNode l -> no_crash (putLeafNodeBase l).
Proof.
  intros (Hc & Hcap & Hext & Hs). unfold putLeafNodeBase.
  destruct Hs as [(-> & (lt & -> & Hlt) & _)|[(-> & -> & _)|(-> & ->)]]; tagb; wsafe.
  unfold putLifetime; wsafe.
Qed.
#[export] Hint Resolve leafNodeBase_nc : wsafe.
Lemma leafNode_nc l : wf_leafNode l -> no_crash (putLeafNode l).
Proof. intros H. unfold putLeafNode. wsafe. Qed.
Lemma leafNodeTBS_nc l g i : wf_leafNode l -> no_crash (putLeafNodeTBS l g i).
Proof. intros H. unfold putLeafNodeTBS. wsafe. Qed.
Lemma parentNode_nc p : no_crash (putParentNode p).
Proof. unfold putParentNode. wsafe. Qed.
#[export] Hint Resolve leafNode_nc leafNodeTBS_nc parentNode_nc : wsafe.
Lemma node_nc n : wf_node n -> no_crash (putNode n).
Proof. destruct n; cbn [wf_node putNode]; intros; wsafe. Qed.
#[export] Hint Resolve node_nc : wsafe.
Lemma optionalNode_nc o : wf_optionalNode o -> no_crash (putOptionalNode o).
Proof. destruct o; cbn [wf_optionalNode putOptionalNode]; intros; wsafe. Qed.
Lemma ratchetTree_nc t : Forall wf_optionalNode t -> no_crash (putRatchetTree t).
Proof.
  intros H. apply (vec_nc _ wf_optionalNode); [exact optionalNode_nc|].
  destruct (trimBlanks_app t) as [k E]. rewrite E in H. now apply Forall_app in H.
Qed.
Lemma hpkeCiphertext_nc h : no_crash (putHpkeCiphertext h).
Proof. unfold putHpkeCiphertext. wsafe. Qed.
#[export] Hint Resolve hpkeCiphertext_nc : wsafe.
Lemma updatePathNode_nc n : no_crash (putUpdatePathNode n).
Proof. unfold putUpdatePathNode. wsafe. apply (vec_nc _ (fun _ => True)); auto with wsafe. Qed.
#[export] Hint Resolve updatePathNode_nc : wsafe.
Lemma updatePath_nc u : wf_updatePath u -> no_crash (putUpdatePath u).
Proof. intros H. unfold putUpdatePath. wsafe. apply (vec_nc _ (fun _ => True)); auto with wsafe. Qed.
#[export] Hint Resolve updatePath_nc : wsafe.
Lemma keyPackageTBS_nc k : wf_keyPackage k -> no_crash (putKeyPackageTBS k).
Proof. intros (_ & _ & H & _). unfold putKeyPackageTBS. wsafe. Qed.
#[export] Hint Resolve keyPackageTBS_nc : wsafe.
Lemma keyPackage_nc k : wf_keyPackage k -> no_crash (putKeyPackage k).
Proof. intros H. unfold putKeyPackage. wsafe. Qed.
#[export] Hint Resolve keyPackage_nc : wsafe.
Lemma pskID_nc p : no_crash (putPskID p).
Proof. destruct p; unfold putPskID; wsafe. Qed.
Lemma groupContext_nc c : no_crash (putGroupContext c).
Proof. unfold putGroupContext. wsafe. Qed.
Lemma reInit_nc r : no_crash (putReInit r).
Proof. unfold putReInit. wsafe. Qed.
#[export] Hint Resolve pskID_nc groupContext_nc reInit_nc : wsafe.
Lemma proposal_nc p : wf_proposal p -> no_crash (putProposal p).
Proof. intros H. unfold putProposal. destruct p; cbn [wf_proposal] in H; wsafe. Qed.
#[export] Hint Resolve proposal_nc : wsafe.
Lemma proposalOrRef_nc p : wf_proposalOrRef p -> no_crash (putProposalOrRef p).
Proof. destruct p; cbn [wf_proposalOrRef putProposalOrRef]; intros; wsafe. Qed.
Lemma commit_nc c : wf_commit c -> no_crash (putCommit c).
Proof.
  intros [H1 H2]. unfold putCommit. wsafe.
  - apply (vec_nc _ wf_proposalOrRef); auto. exact proposalOrRef_nc.
  - destruct (c_path c); wsafe.
Qed.
#[export] Hint Resolve commit_nc : wsafe.
Lemma groupInfoTBS_nc g : no_crash (putGroupInfoTBS g).
Proof. unfold putGroupInfoTBS. wsafe. Qed.
#[export] Hint Resolve groupInfoTBS_nc : wsafe.
Lemma groupInfo_nc g : no_crash (putGroupInfo g).
Proof. unfold putGroupInfo. wsafe. Qed.
Lemma groupSecrets_nc g : no_crash (putGroupSecrets g).
Proof.
  unfold putGroupSecrets. wsafe.
  - destruct (gs_pathSecret g); wsafe.
  - apply (vec_nc _ (fun _ => True)); auto with wsafe.
Qed.
Lemma egs_nc g : no_crash (putEncryptedGroupSecrets g).
Proof. unfold putEncryptedGroupSecrets. wsafe. Qed.
Lemma welcome_nc w : no_crash (putWelcome w).
Proof. unfold putWelcome. wsafe. apply (vec_nc _ (fun _ => True)); auto using egs_nc. Qed.
Lemma sender_nc s : no_crash (putSender s).
Proof. destruct s; cbn [putSender]; wsafe. Qed.
Lemma body_nc b : wf_body b -> no_crash (putBody b).
Proof. destruct b; cbn [wf_body putBody]; intros; wsafe. Qed.
Lemma authData_nc ct a : no_crash (putAuthData ct a).
Proof. unfold putAuthData. wsafe. Qed.
#[export] Hint Resolve groupInfo_nc groupSecrets_nc welcome_nc sender_nc body_nc authData_nc : wsafe.
Lemma framedContent_nc c : wf_framedContent c -> no_crash (putFramedContent c).
Proof. intros (_ & _ & H). unfold putFramedContent. wsafe. Qed.
#[export] Hint Resolve framedContent_nc : wsafe.
Lemma authenticatedContent_nc a : wf_authenticatedContent a -> no_crash (putAuthenticatedContent a).
Proof. intros (_ & H & _). unfold putAuthenticatedContent. wsafe. Qed.
Lemma framedContentTBS_nc wf c ctx : wf_framedContent c -> no_crash (putFramedContentTBS wf c ctx).
Proof. intros H. unfold putFramedContentTBS. wsafe. destruct (fc_sender c); wsafe. Qed.
#[export] Hint Resolve framedContentTBS_nc authenticatedContent_nc : wsafe.
Lemma authenticatedContentTBM_nc wf c ctx a : wf_framedContent c -> no_crash (putAuthenticatedContentTBM wf c ctx a).
Proof. intros H. unfold putAuthenticatedContentTBM. wsafe. Qed.
Lemma cthi_nc wf c sig : wf_framedContent c -> no_crash (putConfirmedTranscriptHashInput wf c sig).
Proof. intros H. unfold putConfirmedTranscriptHashInput. destruct (fc_body c) eqn:E; try exact I. wsafe. Qed.
Lemma publicMessage_nc m : wf_publicMessage m -> no_crash (putPublicMessage m).
Proof. intros (H & _ & _). unfold putPublicMessage. wsafe. destruct (fc_sender (pubm_content m)); wsafe. Qed.
Lemma privateMessage_nc m : no_crash (putPrivateMessage m).
Proof. unfold putPrivateMessage. wsafe. Qed.
Lemma privateMessageContent_nc c : wf_privateMessageContent c -> no_crash (putPrivateMessageContent c).
Proof. intros (H & _). unfold putPrivateMessageContent. wsafe. Qed.
#[export] Hint Resolve authenticatedContentTBM_nc cthi_nc publicMessage_nc privateMessage_nc privateMessageContent_nc : wsafe.
Lemma mlsMessage_nc m : wf_mlsMessage m -> no_crash (putMlsMessage m).
Proof. intros H. unfold putMlsMessage. wsafe. destruct m; cbn [wf_mlsMessage] in H; wsafe. Qed.

(** ** Exported entry points *)
Lemma keyPackageBytes_eq k e : keyPackageBytes k = Ok e <-> putMlsMessage (MKeyPackage k) = Ok e.
Proof. unfold keyPackageBytes. destruct (putMlsMessage (MKeyPackage k)); split; congruence. Qed.
Lemma welcomeBytes_eq w e : welcomeBytes w = Ok e <-> putMlsMessage (MWelcome w) = Ok e.
Proof. unfold welcomeBytes. destruct (putMlsMessage (MWelcome w)); split; congruence. Qed.

Lemma unmarshalKeyPackage_ok raw k : unmarshalKeyPackage raw = Ok k <-> getMlsMessage raw = (Ok (MKeyPackage k), []).
Proof.
  unfold unmarshalKeyPackage. split.
  - intros H. apply rbind_ok in H. destruct H as (m & Hm & H). apply unmarshal_ok in Hm.
    destruct m; inversion H; subst. assumption.
  - intros H. apply unmarshal_ok in H. now rewrite H.
Qed.
Lemma unmarshalWelcome_ok raw w : unmarshalWelcome raw = Ok w <-> getMlsMessage raw = (Ok (MWelcome w), []).
Proof.
  unfold unmarshalWelcome. split.
  - intros H. apply rbind_ok in H. destruct H as (m & Hm & H). apply unmarshal_ok in Hm.
    destruct m; inversion H; subst. assumption.
  - intros H. apply unmarshal_ok in H. now rewrite H.
Qed.

Lemma unmarshalKeyPackage_Bytes k e : wf_keyPackage k -> keyPackageBytes k = Ok e -> unmarshalKeyPackage e = Ok k.
Proof.
  intros Hw H. apply (proj1 (keyPackageBytes_eq _ _)) in H. apply (proj2 (unmarshalKeyPackage_ok _ _)).
  rewrite <- (app_nil_r e). now apply mlsMessage_RT.
Qed.
Lemma unmarshalWelcome_Bytes k e : wf_welcome k -> welcomeBytes k = Ok e -> unmarshalWelcome e = Ok k.
Proof.
  intros Hw H. apply (proj1 (welcomeBytes_eq _ _)) in H. apply (proj2 (unmarshalWelcome_ok _ _)).
  rewrite <- (app_nil_r e). now apply mlsMessage_RT.
Qed.

(** A prefix code: nothing accepted is a proper prefix of something accepted. *)
Lemma CANT_prefix {A} (r : reader A) w wf (HR : RT r w wf) (HC : CANT r w wf) s1 s2 x1 x2 :
  r s1 = (Ok x1, []) -> r (s1 ++ s2) = (Ok x2, []) -> s2 = [].
Proof.
  intros H1 H2. apply HC in H1. destruct H1 as (Hw & e & He & E). rewrite app_nil_r in E. subst e.
  pose proof (HR x1 s1 s2 Hw He) as H3. rewrite H3 in H2. now inversion H2.
Qed.

Lemma unmarshalWelcome_canonical raw w : unmarshalWelcome raw = Ok w -> welcomeBytes w = Ok raw.
Proof.
  intros H. apply (proj1 (unmarshalWelcome_ok _ _)) in H. apply mlsMessage_CAN in H. destruct H as (_ & H).
  destruct (H I) as (e & He & E). rewrite app_nil_r in E. subst e. now apply (proj2 (welcomeBytes_eq _ _)).
Qed.

Lemma unmarshalWelcome_prefix s1 s2 w1 w2 :
  unmarshalWelcome s1 = Ok w1 -> unmarshalWelcome (s1 ++ s2) = Ok w2 -> s2 = [].
Proof.
  intros H1 H2. pose proof H1 as H3. apply (proj1 (unmarshalWelcome_ok _ _)) in H1. apply (proj1 (unmarshalWelcome_ok _ _)) in H2.
  apply mlsMessage_CAN in H1. destruct H1 as (Hw & H1). destruct (H1 I) as (e & He & E). rewrite app_nil_r in E. subst e.
  rewrite (mlsMessage_RT _ _ s2 Hw He) in H2. now inversion H2.
Qed.

Lemma unmarshalKeyPackage_good raw k : unmarshalKeyPackage raw = Ok k -> kp_signature k <> [] ->
  keyPackageBytes k = Ok raw.
Proof.
  intros H Hg. apply (proj1 (unmarshalKeyPackage_ok _ _)) in H. apply mlsMessage_CAN in H. destruct H as (_ & H).
  destruct (H Hg) as (e & He & E). rewrite app_nil_r in E. subst e. now apply (proj2 (keyPackageBytes_eq _ _)).
Qed.

Lemma unmarshalKeyPackage_prefix s1 s2 k1 k2 :
  unmarshalKeyPackage s1 = Ok k1 -> unmarshalKeyPackage (s1 ++ s2) = Ok k2 -> kp_signature k1 <> [] -> s2 = [].
Proof.
  intros H1 H2 Hg. apply (proj1 (unmarshalKeyPackage_ok _ _)) in H1. apply (proj1 (unmarshalKeyPackage_ok _ _)) in H2.
  apply mlsMessage_CAN in H1. destruct H1 as (Hw & H1). destruct (H1 Hg) as (e & He & E). rewrite app_nil_r in E. subst e.
  rewrite (mlsMessage_RT _ _ s2 Hw He) in H2. now inversion H2.
Qed.

Lemma unmarshalKeyPackage_Bytes_total raw k : unmarshalKeyPackage raw = Ok k -> exists e, keyPackageBytes k = Ok e.
Proof.
  intros H. apply (proj1 (unmarshalKeyPackage_ok _ _)) in H. unfold getMlsMessage in H. split_binds H.
  destruct (N.eqb_spec a 1) as [->|]; [|discriminate]. cbn [negb] in H. split_binds H.
  apply tag2_can in R0. destruct R0 as (Hin & _).
  destruct Hin as [<-|[<-|[<-|[<-|[<-|[]]]]]]; tagb; split_binds H; try discriminate.
  inversion H; subst. apply keyPackage_dec in R0. destruct R0 as (_ & (e & He) & _).
  exists (be 2 1 ++ be 2 5 ++ e). apply (proj2 (keyPackageBytes_eq _ _)). unfold putMlsMessage. cbn [msg_wireFormat]. now rewrite He.
Qed.

(** ** Injectivity of the to-be-signed encodings *)
Lemma app_inj_by {A} (r : reader A) (w : A -> W) (wf : A -> Prop) :
  RT r w wf -> forall x y ex ey rx ry, wf x -> wf y -> w x = Ok ex -> w y = Ok ey ->
  ex ++ rx = ey ++ ry -> x = y /\ rx = ry.
Proof.
  intros H x y ex ey rx ry Hx Hy Ex Ey E.
  pose proof (H x ex rx Hx Ex) as H1. pose proof (H y ey ry Hy Ey) as H2. rewrite E in H1. rewrite H1 in H2.
  inversion H2; auto.
Qed.

Lemma opaque_app_inj x y ex ey rx ry : writeOpaqueVec x = Ok ex -> writeOpaqueVec y = Ok ey ->
  ex ++ rx = ey ++ ry -> x = y /\ rx = ry.
Proof. intros. eapply (app_inj_by _ _ _ readOpaqueVec_RT); eauto. Qed.
Lemma u16_app_inj x y ex ey rx ry : u16 x -> u16 y -> addUint16 x = Ok ex -> addUint16 y = Ok ey ->
  ex ++ rx = ey ++ ry -> x = y /\ rx = ry.
Proof. intros. eapply (app_inj_by _ _ _ (readUint_RT 2)); eauto. Qed.
Lemma u32_app_inj x y ex ey rx ry : u32 x -> u32 y -> addUint32 x = Ok ex -> addUint32 y = Ok ey ->
  ex ++ rx = ey ++ ry -> x = y /\ rx = ry.
Proof. intros. eapply (app_inj_by _ _ _ (readUint_RT 4)); eauto. Qed.
Lemma u8_app_inj x y ex ey rx ry : u8 x -> u8 y -> addUint8 x = Ok ex -> addUint8 y = Ok ey ->
  ex ++ rx = ey ++ ry -> x = y /\ rx = ry.
Proof. intros. eapply (app_inj_by _ _ _ (readUint_RT 1)); eauto. Qed.
Lemma u64_app_inj x y ex ey rx ry : u64 x -> u64 y -> addUint64 x = Ok ex -> addUint64 y = Ok ey ->
  ex ++ rx = ey ++ ry -> x = y /\ rx = ry.
Proof. intros. eapply (app_inj_by _ _ _ (readUint_RT 8)); eauto. Qed.

Lemma mlsLabel_inj a b : mlsLabel a = mlsLabel b -> a = b.
Proof. unfold mlsLabel. apply app_inv_head. Qed.

Lemma putLabelled_inj l1 c1 l2 c2 e :
  putLabelled l1 c1 = Ok e -> putLabelled l2 c2 = Ok e -> l1 = l2 /\ c1 = c2.
Proof.
  unfold putLabelled. intros H1 H2. apply wapp_ok in H1, H2.
  destruct H1 as (a & b & Ha & Hb & ->). destruct H2 as (a' & b' & Ha' & Hb' & E).
  apply (opaque_app_inj _ _ _ _ _ _ Ha Ha') in E. destruct E as [E ->]. apply mlsLabel_inj in E.
  split; auto. rewrite <- (app_nil_r b') in Hb, Hb'. destruct (opaque_app_inj _ _ _ _ [] [] Hb Hb' eq_refl) as [H _]. exact H.
Qed.
