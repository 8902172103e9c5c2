(** Proofs of the codec properties. *)
From Verif Require Export SpecCodec SignFacts.

(** ** C01 *)
Lemma denotes_len bs n p : denotes bs n -> lenN bs = 2 ^ p -> n < 2 ^ (8 * 2 ^ p - 2).
Proof.
  intros (q & Hq & Hl & Hn & _) H. rewrite Hl in H. apply N.pow_inj_r in H; [|lia]. subst. assumption.
Qed.

Lemma writeVarint_shortest n e : writeVarint n = Ok e -> shortest e n.
Proof.
  rewrite writeVarint_spec. intros H.
  assert (Hany : forall bs', denotes bs' n -> 1 <= lenN bs').
  { intros bs' (p & _ & -> & _). pose proof (pow2_pos p). lia. }
  destruct (N.ltb_spec n 64) as [H1|H1]; [|destruct (N.ltb_spec n 16384) as [H2|H2]; [|destruct (N.ltb_spec n (2^30)) as [H3|H3]; [|discriminate]]].
  - assert (e = be 1 n) by congruence. subst e. split.
    + exists 0. rewrite lenN_be, unbe_be. change (8 * 2 ^ 0 - 2) with 6. change (8 * N.of_nat 1) with 8.
      change (2 ^ 6) with 64. change (2 ^ 8) with 256. rewrite N.mod_small by lia. repeat split; lia.
    + rewrite lenN_be. exact Hany.
  - assert (e = be 2 (16384 + n)) by congruence. subst e. split.
    + exists 1. rewrite lenN_be, unbe_be. change (8 * 2 ^ 1 - 2) with 14. change (8 * N.of_nat 2) with 16.
      change (2 ^ 14) with 16384. change (2 ^ 16) with 65536. rewrite N.mod_small by lia. repeat split; lia.
    + intros bs' Hd. rewrite lenN_be. change (N.of_nat 2) with 2. pose proof Hd as (p & Hp & Hl & Hn & _).
      assert (Hc : p = 0 \/ p = 1 \/ p = 2) by lia. destruct Hc as [->|[->| ->]]; rewrite Hl.
      * change (2 ^ (8 * 2 ^ 0 - 2)) with 64 in Hn. lia.
      * cbn. lia.
      * cbn. lia.
  - assert (e = be 4 (2 * 2 ^ 30 + n)) by congruence. subst e. split.
    + exists 2. rewrite lenN_be, unbe_be. change (8 * 2 ^ 2 - 2) with 30. change (8 * N.of_nat 4) with 32.
      change (2 ^ 32) with (4 * 2 ^ 30). rewrite N.mod_small by lia. repeat split; lia.
    + intros bs' Hd. rewrite lenN_be. change (N.of_nat 4) with 4. pose proof Hd as (p & Hp & Hl & Hn & _).
      assert (Hc : p = 0 \/ p = 1 \/ p = 2) by lia. destruct Hc as [->|[->| ->]]; rewrite Hl.
      * change (2 ^ (8 * 2 ^ 0 - 2)) with 64 in Hn. lia.
      * change (2 ^ (8 * 2 ^ 1 - 2)) with 16384 in Hn. lia.
      * cbn. lia.
Qed.

Lemma denotes_bound bs n : denotes bs n -> n < 2 ^ 30.
Proof.
  intros (p & Hp & _ & Hn & _). eapply N.lt_le_trans; [exact Hn|]. apply pow2_le.
  assert (Hc : p = 0 \/ p = 1 \/ p = 2) by lia. destruct Hc as [->|[->| ->]]; cbn; lia.
Qed.

Lemma shortest_unique a b n : shortest a n -> shortest b n -> a = b.
Proof.
  intros [Ha Ha'] [Hb Hb'].
  assert (Hl : lenN a = lenN b) by (apply N.le_antisymm; auto).
  destruct Ha as (p & Hp & Hla & Hna & Hva). destruct Hb as (q & Hq & Hlb & Hnb & Hvb).
  assert (p = q) by (rewrite Hla, Hlb in Hl; apply N.pow_inj_r in Hl; lia). subst q.
  rewrite <- (be_unbe a), <- (be_unbe b), Hva, Hvb. f_equal. unfold lenN in Hl. lia.
Qed.

Lemma varint_accepts s n rest :
  readVarint s = (Ok n, rest) <-> exists bs, s = bs ++ rest /\ shortest bs n.
Proof.
  split.
  - intros H. apply readVarint_inv in H. destruct H as (_ & e & He & ->). exists e. split; auto.
    now apply writeVarint_shortest.
  - intros (bs & -> & Hs). destruct (writeVarint_bound_ok n) as [e He].
    { eapply denotes_bound, Hs. }
    assert (bs = e) by (eapply shortest_unique; eauto using writeVarint_shortest). subst e.
    now apply readVarint_RT.
Qed.

Lemma varint_writes n :
  (n < 2 ^ 30 -> exists bs, writeVarint n = Ok bs /\ shortest bs n) /\
  (2 ^ 30 <= n -> exists msg, writeVarint n = Err msg).
Proof.
  split.
  - intros H. destruct (writeVarint_bound_ok _ H) as [e He]. eauto using writeVarint_shortest.
  - intros H. rewrite writeVarint_spec. change (2 ^ 30) with 1073741824 in *.
    destruct (N.ltb_spec n 64); [lia|]. destruct (N.ltb_spec n 16384); [lia|].
    destruct (N.ltb_spec n 1073741824); [lia|]. eauto.
Qed.

(** ** C05: readers only ever drop a prefix of their input *)
Definition SUF {A} (r : reader A) : Prop := forall s, exists p, s = p ++ snd (r s).

Lemma SUF_ret {A} (a : A) : SUF (rd_ret a). Proof. intros s. now exists []. Qed.
Lemma SUF_err {A} e : SUF (@rd_err A e). Proof. intros s. now exists []. Qed.
Lemma SUF_panic {A} e : SUF (@rd_panic A e). Proof. intros s. now exists []. Qed.
Lemma SUF_bind {A B} (r : reader A) (k : A -> reader B) : SUF r -> (forall a, SUF (k a)) -> SUF (rd_bind r k).
Proof.
  intros Hr Hk s. unfold rd_bind. destruct (Hr s) as [p Hp]. destruct (r s) as [[a|e|q|] s'] eqn:E; cbn in *; eauto.
  destruct (Hk a s') as [p' Hp']. exists (p ++ p'). rewrite <- app_assoc, <- Hp'. exact Hp.
Qed.
Lemma SUF_readN n : SUF (readN n).
Proof.
  intros s. pose proof (readN_cases n s) as H. destruct (readN n s) as [[x|e|q|] s']; cbn.
  - destruct H as [-> _]. eauto.
  - destruct H as [-> _]. now exists [].
  - destruct H.
  - destruct H.
Qed.
Create HintDb suf.
#[export] Hint Resolve SUF_ret SUF_err SUF_panic SUF_readN : suf.
Ltac suf :=
  repeat first
    [ solve [auto with suf]
    | match goal with
      | |- SUF (if ?b then _ else _) => destruct b
      | |- SUF (rd_bind _ _) => apply SUF_bind; [ | intros ?]
      | |- SUF (match ?x with _ => _ end) => destruct x
      end ].
Lemma SUF_readUint k : SUF (readUint k). Proof. unfold readUint. suf. Qed.
#[export] Hint Resolve SUF_readUint : suf.
Lemma SUF_readVarintLoop k : forall v, SUF (readVarintLoop k v).
Proof. induction k; intros v; cbn; suf. apply SUF_readUint. Qed.
#[export] Hint Resolve SUF_readVarintLoop : suf.
Lemma SUF_u8 : SUF readUint8. Proof. apply SUF_readUint. Qed.
Lemma SUF_u16 : SUF readUint16. Proof. apply SUF_readUint. Qed.
Lemma SUF_u32 : SUF readUint32. Proof. apply SUF_readUint. Qed.
Lemma SUF_u64 : SUF readUint64. Proof. apply SUF_readUint. Qed.
#[export] Hint Resolve SUF_u8 SUF_u16 SUF_u32 SUF_u64 : suf.
Lemma SUF_readVarint : SUF readVarint.
Proof. unfold readVarint. suf. Qed.
#[export] Hint Resolve SUF_readVarint : suf.
Lemma SUF_readOpaqueVec : SUF readOpaqueVec. Proof. unfold readOpaqueVec. suf. Qed.
Lemma SUF_const {A} (x : res A) : SUF (fun s => (x, s)). Proof. intros s. now exists []. Qed.
#[export] Hint Resolve SUF_readOpaqueVec SUF_const : suf.
Lemma SUF_readVector {A} (f : reader A) : SUF (readVector f).
Proof. unfold readVector. apply SUF_bind; [suf|]. intros. apply SUF_bind; [suf|]. intros. apply SUF_const. Qed.
Lemma SUF_readOptional : SUF readOptional. Proof. unfold readOptional. suf. Qed.
#[export] Hint Resolve SUF_readVector SUF_readOptional : suf.
Lemma SUF_getTag k v : SUF (getTag k v). Proof. unfold getTag. suf. Qed.
#[export] Hint Resolve SUF_getTag : suf.
Lemma SUF_credential : SUF getCredential. Proof. unfold getCredential. suf. Qed.
Lemma SUF_hpkeCiphertext : SUF getHpkeCiphertext. Proof. unfold getHpkeCiphertext. suf. Qed.
Lemma SUF_extensionVec : SUF getExtensionVec. Proof. unfold getExtensionVec. suf. Qed.
Lemma SUF_capabilities : SUF getCapabilities. Proof. unfold getCapabilities. suf. Qed.
Lemma SUF_lifetime : SUF getLifetime. Proof. unfold getLifetime. suf. Qed.
#[export] Hint Resolve SUF_credential SUF_hpkeCiphertext SUF_extensionVec SUF_capabilities SUF_lifetime : suf.
Lemma SUF_leafNode : SUF getLeafNode. Proof. unfold getLeafNode. suf. Qed.
Lemma SUF_parentNode : SUF getParentNode. Proof. unfold getParentNode. suf. Qed.
#[export] Hint Resolve SUF_leafNode SUF_parentNode : suf.
Lemma SUF_node : SUF getNode. Proof. unfold getNode. suf. Qed.
#[export] Hint Resolve SUF_node : suf.
Lemma SUF_ratchetTree : SUF getRatchetTree. Proof. unfold getRatchetTree. suf. Qed.
Lemma SUF_updatePath : SUF getUpdatePath. Proof. unfold getUpdatePath. suf. Qed.
Lemma SUF_opaqueIF : SUF readOpaqueVecIgnoringFailure.
Proof.
  intros s. unfold readOpaqueVecIgnoringFailure. destruct (SUF_readOpaqueVec s) as [p Hp].
  destruct (readOpaqueVec s) as [[]]; cbn in *; eauto.
Qed.
#[export] Hint Resolve SUF_ratchetTree SUF_updatePath SUF_opaqueIF : suf.
Lemma SUF_keyPackage : SUF getKeyPackage. Proof. unfold getKeyPackage. suf. Qed.
Lemma SUF_pskID : SUF getPskID. Proof. unfold getPskID. suf. Qed.
Lemma SUF_groupContext : SUF getGroupContext. Proof. unfold getGroupContext. suf. Qed.
Lemma SUF_reInit : SUF getReInit. Proof. unfold getReInit. suf. Qed.
#[export] Hint Resolve SUF_keyPackage SUF_pskID SUF_groupContext SUF_reInit : suf.
Lemma SUF_proposal : SUF getProposal. Proof. unfold getProposal. suf. Qed.
#[export] Hint Resolve SUF_proposal : suf.
Lemma SUF_commit : SUF getCommit. Proof. unfold getCommit. suf. Qed.
Lemma SUF_groupInfoTail : SUF getGroupInfoTail.
Proof.
  intros s. unfold getGroupInfoTail. destruct (SUF_readOpaqueVec s) as [p Hp].
  destruct (readOpaqueVec s) as [[] s1]; cbn in *; eauto.
  destruct (SUF_u32 s1) as [p1 Hp1]. destruct (readUint32 s1) as [[] s2]; cbn in *; subst; eauto using app_assoc.
  destruct (SUF_readOpaqueVec s2) as [p2 Hp2].
  destruct (readOpaqueVec s2) as [[] s3]; cbn in *; subst; exists (p ++ p1 ++ p2); now rewrite <- !app_assoc.
Qed.
#[export] Hint Resolve SUF_commit SUF_groupInfoTail : suf.
Lemma SUF_groupInfo : SUF getGroupInfo. Proof. unfold getGroupInfo. suf. Qed.
Lemma SUF_groupSecrets : SUF getGroupSecrets. Proof. unfold getGroupSecrets. suf. Qed.
Lemma SUF_welcome : SUF getWelcome. Proof. unfold getWelcome. suf. Qed.
Lemma SUF_sender : SUF getSender. Proof. unfold getSender. suf. Qed.
Lemma SUF_body ct : SUF (getBody ct). Proof. unfold getBody. suf. Qed.
Lemma SUF_contentType : SUF getContentType. Proof. apply SUF_getTag. Qed.
#[export] Hint Resolve SUF_groupInfo SUF_groupSecrets SUF_welcome SUF_sender SUF_body SUF_contentType : suf.
Lemma SUF_framedContent : SUF getFramedContent. Proof. unfold getFramedContent. suf. Qed.
Lemma SUF_authData ct : SUF (getAuthData ct). Proof. unfold getAuthData. suf. Qed.
#[export] Hint Resolve SUF_framedContent SUF_authData : suf.
Lemma SUF_publicMessage : SUF getPublicMessage. Proof. unfold getPublicMessage. suf. Qed.
Lemma SUF_privateMessage : SUF getPrivateMessage. Proof. unfold getPrivateMessage. suf. Qed.
Lemma SUF_privateMessageContent ct : SUF (getPrivateMessageContent ct). Proof. unfold getPrivateMessageContent. suf. Qed.
Lemma SUF_senderData : SUF getSenderData. Proof. unfold getSenderData. suf. Qed.
#[export] Hint Resolve SUF_publicMessage SUF_privateMessage SUF_privateMessageContent SUF_senderData : suf.
Lemma SUF_mlsMessage : SUF getMlsMessage. Proof. unfold getMlsMessage. suf. Qed.

Lemma SAFE_total {A} (r : reader A) : SAFE r -> SUF r -> total_decoder r.
Proof.
  intros H1 H2 s. split; [|apply H2]. specialize (H1 s). destruct (r s) as [[]]; cbn; auto.
Qed.

Lemma unmarshal_total {A} (r : reader A) raw : SAFE r -> no_crash (unmarshal r raw).
Proof. apply unmarshal_SAFE. Qed.

Lemma unmarshalKeyPackage_total raw : no_crash (unmarshalKeyPackage raw).
Proof.
  unfold unmarshalKeyPackage. pose proof (unmarshal_SAFE getMlsMessage raw mlsMessage_SAFE) as H.
  destruct (unmarshal getMlsMessage raw) as [m| | |]; cbn in *; auto. destruct m; exact I.
Qed.
Lemma unmarshalWelcome_total raw : no_crash (unmarshalWelcome raw).
Proof.
  unfold unmarshalWelcome. pose proof (unmarshal_SAFE getMlsMessage raw mlsMessage_SAFE) as H.
  destruct (unmarshal getMlsMessage raw) as [m| | |]; cbn in *; auto. destruct m; exact I.
Qed.

(** ** C03 *)
Lemma privateMessage_canonical raw m :
  unmarshal getMlsMessage raw = Ok (MPrivate m) -> putMlsMessage (MPrivate m) = Ok raw.
Proof.
  intros H. apply unmarshal_ok in H. apply mlsMessage_CAN in H. destruct H as (_ & H).
  destruct (H I) as (e & He & E). rewrite app_nil_r in E. now subst e.
Qed.
Lemma privateMessage_prefix s1 s2 m x :
  unmarshal getMlsMessage s1 = Ok (MPrivate m) -> unmarshal getMlsMessage (s1 ++ s2) = Ok x -> s2 = [].
Proof.
  intros H1 H2. apply unmarshal_ok in H1, H2.
  apply mlsMessage_CAN in H1. destruct H1 as (Hw & H1). destruct (H1 I) as (e & He & E). rewrite app_nil_r in E. subst e.
  rewrite (mlsMessage_RT _ _ s2 Hw He) in H2. now inversion H2.
Qed.

(** ** C07 *)
Lemma signedBytes_inj o1 o2 e : wf_signedObject o1 -> wf_signedObject o2 ->
  signedBytes o1 = Ok e -> signedBytes o2 = Ok e -> same_signed o1 o2.
Proof.
  intros W1 W2 H1 H2.
  destruct o1, o2; cbn [signedBytes wf_signedObject same_signed] in *;
    apply rbind_ok in H1; destruct H1 as (t1 & T1 & H1);
    apply rbind_ok in H2; destruct H2 as (t2 & T2 & H2);
    destruct (putLabelled_inj _ _ _ _ _ H1 H2) as [Hl ->]; try (vm_compute in Hl; discriminate).
  - destruct W1 as [W1 U1], W2 as [W2 U2].
    destruct (leafNodeTBS_inj _ _ _ _ _ _ _ W1 W2 U1 U2 T1 T2) as [Hu Hg].
    destruct l, l0. unfold unsignedLeaf in Hu; cbn in *. inversion Hu; subst. splits; auto.
  - pose proof (keyPackageTBS_inj _ _ _ W1 W2 T1 T2) as Hu. destruct k, k0. unfold unsignedKeyPackage in Hu; cbn in *.
    inversion Hu; subst. splits; auto.
  - pose proof (groupInfoTBS_inj _ _ _ W1 W2 T1 T2) as Hu. destruct g, g0. unfold unsignedGroupInfo in Hu; cbn in *.
    inversion Hu; subst. splits; auto.
  - destruct W1 as (U1 & C1 & X1), W2 as (U2 & C2 & X2).
    destruct (framedContentTBS_app_inj _ _ _ _ _ _ _ _ [] [] U1 U2 C1 C2 X1 X2 T1 T2 eq_refl) as (-> & -> & Hx & _).
    splits; auto. unfold coversContext in Hx. destruct (fc_sender c0); auto.
Qed.

(** ** C08 *)
Lemma ratchetTree_full raw t : unmarshal getRatchetTree raw = Ok t ->
  exists l d, unmarshal (readVector getOptionalNode) raw = Ok l /\
    t = l ++ repeat None (length t - length l) /\ lenN t + 1 = 2 ^ d /\
    (forall d', lenN l + 1 <= 2 ^ d' -> 2 ^ d <= 2 ^ d').
Proof.
  intros H. apply unmarshal_ok in H. destruct (ratchetTree_dec _ _ _ H) as (l & e & d & He & Hr & Hw & Ht & Hl & Hd & Hlen).
  exists l, d. rewrite app_nil_r in Hr. subst raw. splits.
  - apply unmarshal_ok. rewrite <- (app_nil_r e). eapply readVector_RT; [exact optionalNode_RT|auto with safe|exact Hw|exact He].
  - rewrite Ht at 1. f_equal. f_equal. subst t. rewrite app_length, repeat_length. lia.
  - assumption.
  - intros d' Hd'. apply N.nlt_ge. intros Hx. apply Hd in Hx. lia.
Qed.

Lemma ratchetTree_reencode raw l t : unmarshal (readVector getOptionalNode) raw = Ok l ->
  unmarshal getRatchetTree raw = Ok t -> endsNonBlank l -> putRatchetTree t = Ok raw.
Proof.
  intros Hl H Hn. destruct (ratchetTree_full _ _ H) as (l' & d & Hl' & Ht & _). rewrite Hl in Hl'. inversion Hl'; subst l'.
  unfold putRatchetTree. rewrite Ht, trimBlanks_repeat, trimBlanks_id by assumption.
  apply unmarshal_ok in Hl. apply (readVector_CANT _ _ _ optionalNode_CANT) in Hl. destruct Hl as (_ & e & He & E).
  rewrite app_nil_r in E. now subst e.
Qed.

Lemma ratchetTree_roundtrip t e : wf_ratchetTree t -> putRatchetTree t = Ok e -> unmarshal getRatchetTree e = Ok t.
Proof.
  intros Hw He. apply unmarshal_ok. rewrite <- (app_nil_r e). now apply ratchetTree_rt.
Qed.
