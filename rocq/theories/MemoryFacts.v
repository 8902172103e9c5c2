(** Facts about the memory that decoding takes. *)
From Verif Require Export Memory SpecMemory.
From Verif Require Import CodecFacts2 ModelFacts.

(** ** Apart from the count, the decoders are those of Codec.v *)
Definition counts {A} (m : mreader A) (r : reader A) : Prop := forall s, fst (m s) = r s.

Lemma counts_free {A} (r : reader A) : counts (free r) r.
Proof. intros s. reflexivity. Qed.
Lemma counts_ret {A} (a : A) : counts (m_ret a) (rd_ret a).
Proof. intros s. reflexivity. Qed.
Lemma counts_err {A} e : counts (@m_err A e) (rd_err e).
Proof. intros s. reflexivity. Qed.
Lemma counts_panic {A} e : counts (@m_panic A e) (rd_panic e).
Proof. intros s. reflexivity. Qed.

Lemma counts_bind {A B} (m : mreader A) r (k : A -> mreader B) k' :
  counts m r -> (forall a, counts (k a) (k' a)) -> counts (m_bind m k) (rd_bind r k').
Proof.
  intros H1 H2 s. unfold m_bind, rd_bind. rewrite <- H1.
  destruct (m s) as [[[a|e|p|] s'] c]; cbn; auto.
  rewrite <- H2. now destruct (k a s').
Qed.

Lemma counts_opaque : counts memOpaqueVec readOpaqueVec.
Proof. apply counts_bind; [apply counts_free|]. intros n s. reflexivity. Qed.

Lemma counts_loop {A} (m : mreader A) r : counts m r ->
  forall fuel s, fst (memVectorLoop fuel m s) = readVectorLoop fuel r s.
Proof.
  intros H. induction fuel as [|f IH]; intros [|b s]; cbn; auto.
  rewrite <- H. destruct (m (b :: s)) as [[[a|e|p|] s'] c]; cbn; auto.
  rewrite <- IH. destruct (memVectorLoop f m s') as [o c']. now destruct o.
Qed.

Lemma counts_vector {A} (m : mreader A) r : counts m r -> counts (memVector m) (readVector r).
Proof.
  intros H. apply counts_bind; [apply counts_free|]. intros n. apply counts_bind; [apply counts_free|].
  intros v s. rewrite <- (counts_loop m r H). now destruct (memVectorLoop (Datatypes.length v) m v).
Qed.

Create HintDb mem.
Local Hint Resolve counts_free counts_ret counts_err counts_panic counts_opaque counts_vector : mem.
Local Ltac co := intros; repeat first
  [ progress intros
  | solve [auto with mem nocore]
  | apply counts_vector
  | apply counts_bind
  | match goal with |- counts (if ?b then _ else _) _ => destruct b
    | |- counts (match ?s with SMember _ => _ | _ => _ end) _ => destruct s end ].

Lemma counts_credential : counts memCredential getCredential.
Proof. unfold memCredential, getCredential. co. Qed.
Local Hint Resolve counts_credential : mem.
Lemma counts_hpke : counts memHpkeCiphertext getHpkeCiphertext.
Proof. unfold memHpkeCiphertext, getHpkeCiphertext. co. Qed.
Local Hint Resolve counts_hpke : mem.
Lemma counts_extensions : counts memExtensionVec getExtensionVec.
Proof. unfold memExtensionVec, getExtensionVec, memExtension, getExtension. co. Qed.
Local Hint Resolve counts_extensions : mem.
Lemma counts_capabilities : counts memCapabilities getCapabilities.
Proof. unfold memCapabilities, getCapabilities. co. Qed.
Local Hint Resolve counts_capabilities : mem.
Lemma counts_leaf : counts memLeafNode getLeafNode.
Proof. unfold memLeafNode, getLeafNode. co. Qed.
Local Hint Resolve counts_leaf : mem.
Lemma counts_parent : counts memParentNode getParentNode.
Proof. unfold memParentNode, getParentNode. co. Qed.
Local Hint Resolve counts_parent : mem.
Lemma counts_node : counts memNode getNode.
Proof. unfold memNode, getNode. co. Qed.
Local Hint Resolve counts_node : mem.
Lemma counts_optional : counts memOptionalNode getOptionalNode.
Proof. unfold memOptionalNode, getOptionalNode. co. Qed.
Local Hint Resolve counts_optional : mem.
Lemma counts_tree : counts memRatchetTree getRatchetTree.
Proof. apply counts_bind; [co|]. intros l. destruct (padCount _ _) as [k|e|p|]; intros s; reflexivity. Qed.
Lemma counts_pathNode : counts memUpdatePathNode getUpdatePathNode.
Proof. unfold memUpdatePathNode, getUpdatePathNode. co. Qed.
Local Hint Resolve counts_pathNode : mem.
Lemma counts_path : counts memUpdatePath getUpdatePath.
Proof. unfold memUpdatePath, getUpdatePath. co. Qed.
Local Hint Resolve counts_path : mem.
Lemma counts_ignoring : counts memOpaqueVecIgnoringFailure readOpaqueVecIgnoringFailure.
Proof.
  intros s. unfold memOpaqueVecIgnoringFailure, readOpaqueVecIgnoringFailure. rewrite <- counts_opaque.
  now destruct (memOpaqueVec s) as [[[a|e|p|] s'] c].
Qed.
Local Hint Resolve counts_ignoring : mem.
Lemma counts_keyPackage : counts memKeyPackage getKeyPackage.
Proof. unfold memKeyPackage, getKeyPackage. co. Qed.
Local Hint Resolve counts_keyPackage : mem.
Lemma counts_psk : counts memPskID getPskID.
Proof. unfold memPskID, getPskID. co. Qed.
Local Hint Resolve counts_psk : mem.
Lemma counts_context : counts memGroupContext getGroupContext.
Proof. unfold memGroupContext, getGroupContext. co. Qed.
Local Hint Resolve counts_context : mem.
Lemma counts_reInit : counts memReInit getReInit.
Proof. unfold memReInit, getReInit. co. Qed.
Local Hint Resolve counts_reInit : mem.
Lemma counts_proposal : counts memProposal getProposal.
Proof. unfold memProposal, getProposal. co. Qed.
Local Hint Resolve counts_proposal : mem.
Lemma counts_proposalOrRef : counts memProposalOrRef getProposalOrRef.
Proof. unfold memProposalOrRef, getProposalOrRef. co. Qed.
Local Hint Resolve counts_proposalOrRef : mem.
Lemma counts_commit : counts memCommit getCommit.
Proof. unfold memCommit, getCommit. co. Qed.
Local Hint Resolve counts_commit : mem.
Lemma counts_tail : counts memGroupInfoTail getGroupInfoTail.
Proof.
  intros s. unfold memGroupInfoTail, getGroupInfoTail. rewrite <- counts_opaque.
  destruct (memOpaqueVec s) as [[[a|e|p|] s'] c]; cbn [fst]; auto.
  destruct (readUint32 s') as [[b|e|p|] s'']; cbn [fst]; auto. rewrite <- counts_opaque.
  now destruct (memOpaqueVec s'') as [[[d|e|p|] s3] c'].
Qed.
Local Hint Resolve counts_tail : mem.
Lemma counts_info : counts memGroupInfo getGroupInfo.
Proof. unfold memGroupInfo, getGroupInfo. co. Qed.
Local Hint Resolve counts_info : mem.
Lemma counts_secrets : counts memGroupSecrets getGroupSecrets.
Proof. unfold memGroupSecrets, getGroupSecrets. co. Qed.
Local Hint Resolve counts_secrets : mem.
Lemma counts_egs : counts memEncryptedGroupSecrets getEncryptedGroupSecrets.
Proof. unfold memEncryptedGroupSecrets, getEncryptedGroupSecrets. co. Qed.
Local Hint Resolve counts_egs : mem.
Lemma counts_welcome : counts memWelcome getWelcome.
Proof. unfold memWelcome, getWelcome. co. Qed.
Local Hint Resolve counts_welcome : mem.
Lemma counts_body ct : counts (memBody ct) (getBody ct).
Proof. unfold memBody, getBody. co. Qed.
Local Hint Resolve counts_body : mem.
Lemma counts_framed : counts memFramedContent getFramedContent.
Proof. unfold memFramedContent, getFramedContent. co. Qed.
Local Hint Resolve counts_framed : mem.
Lemma counts_auth ct : counts (memAuthData ct) (getAuthData ct).
Proof. unfold memAuthData, getAuthData. co. Qed.
Local Hint Resolve counts_auth : mem.
Lemma counts_public : counts memPublicMessage getPublicMessage.
Proof. unfold memPublicMessage, getPublicMessage. co. Qed.
Local Hint Resolve counts_public : mem.
Lemma counts_private : counts memPrivateMessage getPrivateMessage.
Proof. unfold memPrivateMessage, getPrivateMessage. co. Qed.
Local Hint Resolve counts_private : mem.
Lemma counts_privateContent ct : counts (memPrivateMessageContent ct) (getPrivateMessageContent ct).
Proof. unfold memPrivateMessageContent, getPrivateMessageContent. co. Qed.
Lemma counts_message : counts memMlsMessage getMlsMessage.
Proof. unfold memMlsMessage, getMlsMessage. co. Qed.

(** ** Bounds *)

Lemma varint_short s n s' : readVarint s = (Ok n, s') -> n < 2^30 /\ lenN s' + 1 <= lenN s.
Proof.
  intros E. split; [now apply readVarint_inv in E|].
  pose proof (readVarint_SAFE s) as H. rewrite E in H. unfold lenN. lia.
Qed.

(** A decoder pays for what it takes out of [K] for each byte it consumes, with
    [d] to spare when it succeeds, and with [D] more when it fails. *)
Section Bounds.
Context (K D : N) (HK : 1 <= K) (HD : 2^30 - 1 <= K + D).

Definition within (d : N) {A} (m : mreader A) : Prop := forall s,
  match m s with
  | ((Ok _, s'), c) => c + d + K * lenN s' <= K * lenN s
  | ((_, _), c) => c <= K * lenN s + D
  end.

Lemma within_0 {A} (m : mreader A) : within 1 m -> within 0 m.
Proof. intros H s. specialize (H s). destruct (m s) as [[[a|e|p|] s'] c]; lia. Qed.

Lemma within_free {A} (r : reader A) : SAFE r -> within 1 (free r).
Proof.
  intros H s. specialize (H s). unfold free. destruct (r s) as [[a|e|p|] s']; try lia.
  assert (L : lenN s' + 1 <= lenN s) by (unfold lenN; lia). nia.
Qed.
Lemma within_ret {A} (a : A) : within 0 (m_ret a).
Proof. intros s. cbn. lia. Qed.
Lemma within_err {A} d e : within d (@m_err A e).
Proof. intros s. cbn. lia. Qed.
Lemma within_panic {A} d e : within d (@m_panic A e).
Proof. intros s. cbn. lia. Qed.

Lemma within_bind {A B} d (m : mreader A) (k : A -> mreader B) :
  within d m -> (forall a, within 0 (k a)) -> within d (m_bind m k).
Proof.
  intros H1 H2 s. specialize (H1 s). unfold m_bind. destruct (m s) as [[[a|e|p|] s'] c]; auto.
  specialize (H2 a s'). destruct (k a s') as [[[b|e|p|] s''] c']; cbn; lia.
Qed.


Lemma within_opaque : within 1 memOpaqueVec.
Proof.
  intros s. unfold memOpaqueVec, m_bind, free.
  destruct (readVarint s) as [[n|e|p|] s'] eqn:E; try lia.
  destruct (varint_short _ _ _ E) as [Hn L].
  destruct (readN n s') as [[v|e|p|] s''] eqn:E2; try (cbn; nia).
  apply readN_inv in E2. destruct E2 as [-> <-]. unfold lenN in *. rewrite app_length in L.
  cbn. nia.
Qed.

Lemma loop_within {A} (m : mreader A) : within 1 m -> forall fuel s,
  match memVectorLoop fuel m s with
  | (Ok l, c) => c <= K * lenN s /\ lenN l <= c
  | (_, c) => c <= K * lenN s + D
  end.
Proof.
  intros H. induction fuel as [|f IH]; intros [|b s]; cbn [memVectorLoop];
    try (split; unfold lenN; cbn; lia); try lia.
  specialize (H (b :: s)). destruct (m (b :: s)) as [[[a|e|p|] s'] c]; try lia.
  specialize (IH s'). destruct (memVectorLoop f m s') as [[l|e|p|] c']; unfold rmap, rbind; try lia.
  destruct IH as [I1 I2]. assert (L : lenN (a :: l) = lenN l + 1) by (unfold lenN; cbn [Datatypes.length]; lia).
  rewrite L. lia.
Qed.

Lemma within_vector {A} (m : mreader A) : within 1 m -> within 1 (memVector m).
Proof.
  intros H s. unfold memVector, m_bind, free.
  destruct (readVarint s) as [[n|e|p|] s'] eqn:E; try lia.
  destruct (varint_short _ _ _ E) as [Hn L].
  destruct (readN n s') as [[v|e|p|] s''] eqn:E2; try (cbn; lia).
  apply readN_inv in E2. destruct E2 as [-> <-]. unfold lenN in L. rewrite app_length in L.
  pose proof (loop_within m H (Datatypes.length v) v) as B.
  destruct (memVectorLoop (Datatypes.length v) m v) as [[l|e|p|] c]; cbn -[N.mul]; unfold lenN in *; nia.
Qed.

Local Hint Resolve within_ret within_err within_panic within_opaque : mem.
Local Hint Resolve readUint16_SAFE readUint32_SAFE readUint64_SAFE getTag1_SAFE getTag2_SAFE
  lifetime_SAFE readOptional_SAFE sender_SAFE contentType_SAFE : mem.
Local Ltac wi := intros; repeat first
  [ progress intros
  | solve [auto with mem nocore]
  | solve [apply within_0; auto with mem nocore]
  | solve [apply within_free; auto with mem nocore]
  | solve [apply within_0, within_free; auto with mem nocore]
  | apply within_vector
  | apply within_0, within_vector
  | apply within_bind
  | match goal with |- within _ (if ?b then _ else _) => destruct b
    | |- within _ (match ?s with SMember _ => _ | _ => _ end) => destruct s end ].

Lemma within_credential : within 1 memCredential.
Proof. unfold memCredential. wi. Qed.
Local Hint Resolve within_credential : mem.
Lemma within_hpke : within 1 memHpkeCiphertext.
Proof. unfold memHpkeCiphertext. wi. Qed.
Local Hint Resolve within_hpke : mem.
Lemma within_extensions : within 1 memExtensionVec.
Proof. unfold memExtensionVec, memExtension. wi. Qed.
Local Hint Resolve within_extensions : mem.
Lemma within_capabilities : within 1 memCapabilities.
Proof. unfold memCapabilities. wi. Qed.
Local Hint Resolve within_capabilities : mem.
Lemma within_leaf : within 1 memLeafNode.
Proof. unfold memLeafNode. wi. Qed.
Local Hint Resolve within_leaf : mem.
Lemma within_parent : within 1 memParentNode.
Proof. unfold memParentNode. wi. Qed.
Local Hint Resolve within_parent : mem.
Lemma within_node : within 1 memNode.
Proof. unfold memNode. wi. Qed.
Local Hint Resolve within_node : mem.
Lemma within_optional : within 1 memOptionalNode.
Proof. unfold memOptionalNode. wi. Qed.
Local Hint Resolve within_optional : mem.
Lemma within_pathNode : within 1 memUpdatePathNode.
Proof. unfold memUpdatePathNode. wi. Qed.
Local Hint Resolve within_pathNode : mem.
Lemma within_path : within 1 memUpdatePath.
Proof. unfold memUpdatePath. wi. Qed.
Local Hint Resolve within_path : mem.
Lemma within_psk : within 1 memPskID.
Proof. unfold memPskID. wi. Qed.
Local Hint Resolve within_psk : mem.
Lemma within_context : within 1 memGroupContext.
Proof. unfold memGroupContext. wi. Qed.
Local Hint Resolve within_context : mem.
Lemma within_reInit : within 1 memReInit.
Proof. unfold memReInit. wi. Qed.
Local Hint Resolve within_reInit : mem.
Lemma within_secrets : within 1 memGroupSecrets.
Proof. unfold memGroupSecrets. wi. Qed.
Lemma within_egs : within 1 memEncryptedGroupSecrets.
Proof. unfold memEncryptedGroupSecrets. wi. Qed.
Local Hint Resolve within_egs : mem.
Lemma within_welcome : within 1 memWelcome.
Proof. unfold memWelcome. wi. Qed.
Local Hint Resolve within_welcome : mem.
Lemma within_auth ct : within 1 (memAuthData ct).
Proof. unfold memAuthData. wi. Qed.
Local Hint Resolve within_auth : mem.
Lemma within_private : within 1 memPrivateMessage.
Proof. unfold memPrivateMessage. wi. Qed.
Local Hint Resolve within_private : mem.

(** *** The decoders that do not report a failed read need [K] to be large *)
Context (HB : 2^30 - 1 <= K).

Lemma opaque_any s : let '((o, s'), c) := memOpaqueVec s in
  c + K * lenN s' <= K * lenN s /\ match o with Ok _ => c + 1 + K * lenN s' <= K * lenN s | _ => True end.
Proof.
  unfold memOpaqueVec, m_bind, free. pose proof (readVarint_SAFE s) as H0.
  destruct (readVarint s) as [[n|e|p|] s'] eqn:E; try contradiction.
  - destruct (varint_short _ _ _ E) as [Hn L].
    destruct (readN n s') as [[v|e|p|] s''] eqn:E2.
    + apply readN_inv in E2. destruct E2 as [-> <-]. unfold lenN in *. rewrite app_length in L. cbn -[N.mul]. nia.
    + unfold readN in E2. destruct (lenN s' <? n); inversion E2; subst. split; [nia|auto].
    + unfold readN in E2. destruct (lenN s' <? n); inversion E2.
    + unfold readN in E2. destruct (lenN s' <? n); inversion E2.
  - split; auto. unfold lenN. nia.
Qed.

Lemma within_ignoring : within 0 memOpaqueVecIgnoringFailure.
Proof.
  intros s. unfold memOpaqueVecIgnoringFailure. pose proof (opaque_any s) as H.
  destruct (memOpaqueVec s) as [[[a|e|p|] s'] c]; lia.
Qed.
Local Hint Resolve within_ignoring : mem.

Lemma within_tail : within 0 memGroupInfoTail.
Proof.
  intros s. unfold memGroupInfoTail. pose proof (opaque_any s) as H.
  destruct (memOpaqueVec s) as [[[a|e|p|] s'] c]; try lia.
  pose proof (readUint32_SAFE s') as H1. unfold lenN in *.
  destruct (readUint32 s') as [[b|e|p|] s'']; try contradiction; try nia.
  pose proof (opaque_any s'') as H2. unfold lenN in *.
  destruct (memOpaqueVec s'') as [[[d|e|p|] s3] c']; nia.
Qed.
Local Hint Resolve within_tail : mem.

Lemma within_keyPackage : within 1 memKeyPackage.
Proof. unfold memKeyPackage. wi. Qed.
Local Hint Resolve within_keyPackage : mem.
Lemma within_proposal : within 1 memProposal.
Proof. unfold memProposal. wi. Qed.
Local Hint Resolve within_proposal : mem.
Lemma within_proposalOrRef : within 1 memProposalOrRef.
Proof. unfold memProposalOrRef. wi. Qed.
Local Hint Resolve within_proposalOrRef : mem.
Lemma within_commit : within 1 memCommit.
Proof. unfold memCommit. wi. Qed.
Local Hint Resolve within_commit : mem.
Lemma within_info : within 1 memGroupInfo.
Proof. unfold memGroupInfo. wi. Qed.
Local Hint Resolve within_info : mem.
Lemma within_body ct : within 1 (memBody ct).
Proof. unfold memBody. wi. Qed.
Local Hint Resolve within_body : mem.
Lemma within_framed : within 1 memFramedContent.
Proof. unfold memFramedContent. wi. Qed.
Local Hint Resolve within_framed : mem.
Lemma within_public : within 1 memPublicMessage.
Proof. unfold memPublicMessage. wi. Qed.
Local Hint Resolve within_public : mem.
Lemma within_privateContent ct : within 1 (memPrivateMessageContent ct).
Proof. unfold memPrivateMessageContent. wi. Qed.
Lemma within_message : within 1 memMlsMessage.
Proof. unfold memMlsMessage. wi. Qed.
End Bounds.

(** ** Accepted messages *)
Definition tight (d : N) {A} (P : A -> Prop) (m : mreader A) : Prop := forall s a s' c,
  m s = ((Ok a, s'), c) -> P a -> c + d + lenN s' <= lenN s.

Lemma within_tight {A} d (P : A -> Prop) (m : mreader A) : within 1 (2^30 - 1) d m -> tight d P m.
Proof. intros H s a s' c E _. specialize (H s). rewrite E in H. lia. Qed.

Lemma m_bind_inv {A B} (m : mreader A) (k : A -> mreader B) s b s2 c : m_bind m k s = ((Ok b, s2), c) ->
  exists a s1 c1 c2, m s = ((Ok a, s1), c1) /\ k a s1 = ((Ok b, s2), c2) /\ c = c1 + c2.
Proof.
  unfold m_bind. destruct (m s) as [[[a|e|p|] s1] c1]; intros E; try discriminate.
  destruct (k a s1) as [o c2] eqn:E2. apply pair_equal_spec in E. destruct E as [-> <-].
  exists a, s1, c1, c2. auto.
Qed.
Lemma m_ret_inv {A} (a b : A) s s' c : m_ret a s = ((Ok b, s'), c) -> a = b /\ s' = s /\ c = 0.
Proof. unfold m_ret. intros E. apply pair_equal_spec in E. destruct E as [E <-].
  apply pair_equal_spec in E. destruct E as [E <-]. apply Ok_inj in E. auto. Qed.

Lemma tight_vector {A} (P : A -> Prop) (m : mreader A) : tight 1 P m -> tight 1 (Forall P) (memVector m).
Proof.
  intros H s l s2 c E F. unfold memVector in E. apply m_bind_inv in E. destruct E as (n & s1 & c1 & c2 & E1 & E & ->).
  apply m_bind_inv in E. destruct E as (v & s3 & c3 & c4 & E2 & E & ->).
  unfold free in *. apply pair_equal_spec in E1. destruct E1 as [E1 <-].
  apply pair_equal_spec in E2. destruct E2 as [E2 <-].
  apply varint_short in E1. destruct E1 as [_ L]. apply readN_inv in E2. destruct E2 as [-> _].
  assert (G : forall fuel s l c, memVectorLoop fuel m s = (Ok l, c) -> Forall P l -> c <= lenN s).
  { clear - H. induction fuel as [|f IH]; intros [|b s] l c E F; cbn [memVectorLoop] in E.
    - apply pair_equal_spec in E. destruct E as [_ <-]. lia.
    - discriminate.
    - apply pair_equal_spec in E. destruct E as [_ <-]. lia.
    - destruct (m (b :: s)) as [[[a|e|p|] s'] c1] eqn:E1; try discriminate.
      destruct (memVectorLoop f m s') as [[l'|e|p|] c2] eqn:E2; cbn in E; try discriminate.
      apply pair_equal_spec in E. destruct E as [E <-]. apply Ok_inj in E. subst l.
      inversion F; subst. specialize (H _ _ _ _ E1 ltac:(assumption)). specialize (IH _ _ _ E2 ltac:(assumption)). lia. }
  destruct (memVectorLoop (Datatypes.length v) m v) as [r c5] eqn:E2.
  apply pair_equal_spec in E. destruct E as [E <-]. apply pair_equal_spec in E. destruct E as [-> <-].
  specialize (G _ _ _ _ E2 F). unfold lenN in *. rewrite app_length in L. lia.
Qed.

Local Ltac mbind E := apply m_bind_inv in E;
  let a := fresh "a" in let s := fresh "s" in let c1 := fresh "c" in let c2 := fresh "c" in let E1 := fresh "E" in
  destruct E as (a & s & c1 & c2 & E1 & E & ->).

Definition tt1 {A} (m : mreader A) (H : forall K D, 1 <= K -> 2^30 - 1 <= K + D -> within K D 1 m) :
  forall s a s' c, m s = ((Ok a, s'), c) -> c + 1 + lenN s' <= lenN s.
Proof. intros s a s' c E. specialize (H 1 (2^30 - 1) ltac:(lia) ltac:(lia) s). rewrite E in H. lia. Qed.

Lemma ignoring_tight s a s' c : memOpaqueVecIgnoringFailure s = ((Ok a, s'), c) -> a <> [] -> c + 1 + lenN s' <= lenN s.
Proof.
  unfold memOpaqueVecIgnoringFailure. destruct (memOpaqueVec s) as [[[v|e|p|] s1] c1] eqn:E; intros E1 N; try discriminate.
  - apply pair_equal_spec in E1. destruct E1 as [E1 <-]. apply pair_equal_spec in E1. destruct E1 as [_ <-].
    exact (tt1 _ within_opaque _ _ _ _ E).
  - apply pair_equal_spec in E1. destruct E1 as [E1 <-]. apply pair_equal_spec in E1. destruct E1 as [E1 <-].
    apply Ok_inj in E1. congruence.
Qed.

Lemma tail_tight s t s' c : memGroupInfoTail s = ((Ok t, s'), c) -> snd t <> [] -> c + lenN s' <= lenN s.
Proof.
  unfold memGroupInfoTail. intros E N. 
  destruct (memOpaqueVec s) as [[[v|e|p|] s1] c1] eqn:E1; try discriminate.
  - apply (tt1 _ within_opaque) in E1. pose proof (readUint32_SAFE s1) as H1.
    destruct (readUint32 s1) as [[u|e|p|] s2] eqn:E2; try discriminate.
    + destruct (memOpaqueVec s2) as [[[w|e|p|] s3] c3] eqn:E3; try discriminate.
      * apply (tt1 _ within_opaque) in E3. apply pair_equal_spec in E. destruct E as [E <-].
        apply pair_equal_spec in E. destruct E as [_ <-]. unfold lenN in *. lia.
      * apply pair_equal_spec in E. destruct E as [E _]. apply pair_equal_spec in E. destruct E as [E _].
        apply Ok_inj in E. subst t. cbn in N. congruence.
    + apply pair_equal_spec in E. destruct E as [E _]. apply pair_equal_spec in E. destruct E as [E _].
      apply Ok_inj in E. subst t. cbn in N. congruence.
  - apply pair_equal_spec in E. destruct E as [E _]. apply pair_equal_spec in E. destruct E as [E _].
    apply Ok_inj in E. subst t. cbn in N. congruence.
Qed.

Lemma free_tight {A} (r : reader A) s a s' c : SAFE r -> free r s = ((Ok a, s'), c) -> c + 1 + lenN s' <= lenN s.
Proof. intros H. apply tt1. intros K D HK HD. apply within_free; auto. Qed.

Local Ltac done E := apply m_ret_inv in E; destruct E as (? & -> & ->).

Lemma keyPackage_tight : tight 1 (fun k => kp_signature k <> []) memKeyPackage.
Proof.
  intros s k s' c E N. unfold memKeyPackage in E. do 3 mbind E.
  destruct (negb (a =? 1)); [discriminate|]. do 3 mbind E. done E. subst k. cbn in N.
  apply free_tight in E0; [|apply readUint16_SAFE]. apply free_tight in E1; [|apply readUint16_SAFE].
  apply (tt1 _ within_opaque) in E2. apply (tt1 _ within_leaf) in E3. apply (tt1 _ within_extensions) in E4.
  apply ignoring_tight in E5; auto. lia.
Qed.
Lemma proposal_tight : tight 1 signed_proposal memProposal.
Proof.
  intros s p s' c E N. unfold memProposal in E. mbind E. apply free_tight in E0; [|apply getTag2_SAFE].
  destruct (a =? 1).
  { mbind E. done E. subst p. apply keyPackage_tight in E1; auto. lia. }
  destruct (a =? 2); [mbind E; done E; apply (tt1 _ within_leaf) in E1; lia|].
  destruct (a =? 3); [mbind E; done E; apply free_tight in E1; [lia|apply readUint32_SAFE]|].
  destruct (a =? 4); [mbind E; done E; apply (tt1 _ within_psk) in E1; lia|].
  destruct (a =? 5); [mbind E; done E; apply (tt1 _ within_reInit) in E1; lia|].
  destruct (a =? 6); [mbind E; done E; apply (tt1 _ within_opaque) in E1; lia|].
  destruct (a =? 7); [mbind E; done E; apply (tt1 _ within_extensions) in E1; lia|]. discriminate.
Qed.
Lemma proposalOrRef_tight : tight 1 signed_entry memProposalOrRef.
Proof.
  intros s p s' c E N. unfold memProposalOrRef in E. mbind E. apply free_tight in E0; [|apply getTag1_SAFE].
  destruct (a =? 1).
  { mbind E. done E. subst p. apply proposal_tight in E1; auto. lia. }
  destruct (a =? 2); [mbind E; done E; apply (tt1 _ within_opaque) in E1; lia|]. discriminate.
Qed.
Lemma commit_tight : tight 1 (fun c => Forall signed_entry (c_proposals c)) memCommit.
Proof.
  intros s p s' c E N. unfold memCommit in E. do 3 mbind E. done E. subst p.
  apply (tight_vector _ _ proposalOrRef_tight) in E0; auto.
  apply free_tight in E1; [|apply readOptional_SAFE]. destruct a0.
  - mbind E2. done E2. apply (tt1 _ within_path) in E. lia.
  - done E2. lia.
Qed.
Lemma body_tight ct : tight 1 signed_body (memBody ct).
Proof.
  intros s p s' c E N. unfold memBody in E.
  destruct (ct =? 1); [mbind E; done E; apply (tt1 _ within_opaque) in E0; lia|].
  destruct (ct =? 2); [mbind E; done E; subst p; apply proposal_tight in E0; auto; lia|].
  destruct (ct =? 3); [mbind E; done E; subst p; apply commit_tight in E0; auto; lia|]. discriminate.
Qed.
Lemma framed_tight : tight 1 (fun f => signed_body (fc_body f)) memFramedContent.
Proof.
  intros s p s' c E N. unfold memFramedContent in E. do 6 mbind E. done E. subst p.
  apply (tt1 _ within_opaque) in E0. apply free_tight in E1; [|apply readUint64_SAFE].
  apply free_tight in E2; [|apply sender_SAFE]. apply (tt1 _ within_opaque) in E3.
  apply free_tight in E4; [|apply contentType_SAFE]. apply body_tight in E5; auto. lia.
Qed.
Lemma public_tight : tight 1 (fun p => signed_body (fc_body (pubm_content p))) memPublicMessage.
Proof.
  intros s p s' c E N. unfold memPublicMessage in E. do 3 mbind E. done E. subst p.
  apply framed_tight in E0; auto. apply (tt1 _ (fun K D HK HD => within_auth K D HK HD _)) in E1.
  destruct (fc_sender a); try (done E2; lia). apply (tt1 _ within_opaque) in E2. lia.
Qed.
Lemma info_tight : tight 1 (fun i => gi_signature i <> []) memGroupInfo.
Proof.
  intros s p s' c E N. unfold memGroupInfo in E. do 3 mbind E. done E. subst p. cbn in N.
  apply (tt1 _ within_context) in E0. apply (tt1 _ within_extensions) in E1. apply tail_tight in E2; auto. lia.
Qed.
Lemma message_tight : tight 1 signed_message memMlsMessage.
Proof.
  intros s p s' c E N. unfold memMlsMessage in E. mbind E. apply free_tight in E0; [|apply readUint16_SAFE].
  destruct (negb (a =? 1)); [discriminate|]. mbind E. apply free_tight in E1; [|apply getTag2_SAFE].
  destruct (a0 =? 1); [mbind E; done E; subst p; apply public_tight in E2; auto; lia|].
  destruct (a0 =? 2); [mbind E; done E; apply (tt1 _ within_private) in E2; lia|].
  destruct (a0 =? 3); [mbind E; done E; apply (tt1 _ within_welcome) in E2; lia|].
  destruct (a0 =? 4); [mbind E; done E; subst p; apply info_tight in E2; auto; lia|].
  destruct (a0 =? 5); [mbind E; done E; subst p; apply keyPackage_tight in E2; auto; lia|]. discriminate.
Qed.

Lemma unmarshal_taken {A} (m : mreader A) r raw a : counts m r -> unmarshal r raw = Ok a ->
  m raw = ((Ok a, []), taken m raw).
Proof.
  intros C E. unfold taken. rewrite (surjective_pairing (m raw)), C. cbn [snd]. f_equal.
  unfold unmarshal in E. destruct (r raw) as [[b|e|p|] [|x s']] eqn:Er; try discriminate. congruence.
Qed.

Lemma message_memory raw : taken memMlsMessage raw <= (2^30 - 1) * lenN raw.
Proof.
  unfold taken. pose proof (within_message (2^30 - 1) 0 ltac:(lia) ltac:(lia) ltac:(lia) raw) as H.
  destruct (memMlsMessage raw) as [[[a|e|p|] s'] c]; cbn [snd]; lia.
Qed.
Lemma accepted_memory raw m : unmarshal getMlsMessage raw = Ok m -> signed_message m ->
  taken memMlsMessage raw <= lenN raw.
Proof.
  intros E N. apply (unmarshal_taken _ _ _ _ counts_message) in E. apply message_tight in E; auto. lia.
Qed.

Lemma padCount_le fuel : forall k n, padCount fuel k = Ok n -> (n <= fuel)%nat.
Proof.
  induction fuel as [|f IH]; intros k n E; cbn [padCount] in E; destruct (isPowerOf2 _); try discriminate;
    try (apply Ok_inj in E; lia).
  destruct (padCount f (k + 1)) as [x|e|p|] eqn:E1; cbn in E; try discriminate. apply Ok_inj in E. apply IH in E1. lia.
Qed.
Lemma tree_memory raw t : unmarshal getRatchetTree raw = Ok t ->
  taken memRatchetTree raw <= 2 * lenN raw /\ lenN t <= 2 * lenN raw.
Proof.
  intros E. apply (unmarshal_taken _ _ _ _ counts_tree) in E. revert E. generalize (taken memRatchetTree raw). intros c E.
  unfold memRatchetTree in E. mbind E.
  assert (B : c0 + 1 <= lenN raw /\ lenN a <= c0).
  { pose proof E0 as E1. apply (tt1 _ (fun K D HK HD => within_vector K D HK HD _ (within_optional K D HK HD))) in E1.
    split; [lia|]. clear - E0. unfold memVector in E0. do 2 mbind E0.
    unfold free in *. apply pair_equal_spec in E. destruct E as [_ <-]. apply pair_equal_spec in E1. destruct E1 as [_ <-].
    pose proof (loop_within 1 (2^30 - 1) ltac:(lia) ltac:(lia) _ (within_optional 1 (2^30 - 1) ltac:(lia) ltac:(lia)) (Datatypes.length a1) a1) as B.
    destruct (memVectorLoop (Datatypes.length a1) memOptionalNode a1) as [[l|e|p|] c]; try discriminate.
    apply pair_equal_spec in E0. destruct E0 as [E0 <-]. apply pair_equal_spec in E0. destruct E0 as [E0 _].
    apply Ok_inj in E0. subst. lia. }
  destruct (padCount (Datatypes.length a) (lenN a)) as [k|e|p|] eqn:Ek; try discriminate.
  apply padCount_le in Ek. apply pair_equal_spec in E. destruct E as [E <-]. apply pair_equal_spec in E.
  destruct E as [E _]. apply Ok_inj in E. subst t. unfold lenN in *. rewrite app_length, repeat_length. lia.
Qed.

(** Reading an opaque vector never takes more than [2^30 - 1] bytes more than
    there are, so decoding secrets and Welcome messages takes at most that much
    more than their length. *)
Lemma secrets_memory raw :
  taken memGroupSecrets raw <= lenN raw + (2^30 - 1) /\
  (forall x, unmarshal getGroupSecrets raw = Ok x -> taken memGroupSecrets raw <= lenN raw).
Proof.
  split.
  - unfold taken. pose proof (within_secrets 1 (2^30 - 1) ltac:(lia) ltac:(lia) raw) as H.
    destruct (memGroupSecrets raw) as [[[a|e|p|] s'] c]; cbn [snd]; lia.
  - intros x E. apply (unmarshal_taken _ _ _ _ counts_secrets) in E. apply (tt1 _ within_secrets) in E. lia.
Qed.
