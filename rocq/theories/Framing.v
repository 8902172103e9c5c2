(** Signing, MACs and encryption of framed messages (framing.go:269-890). *)
From Verif Require Export Proposal.

(** A verification that fails when encoding fails:
    [raw, err := marshal(x); if err != nil { return false }] *)
Definition falseOnPutErr (w : W) (k : bytes -> res bool) : res bool :=
  match w with
  | Ok raw => k raw
  | Err _ => Ok false
  | Panic p => Panic p
  | Hang => Hang
  end.

Section WithCrypto.
Context {C : crypto}.

(** framing.go:269-281 signAuthenticatedContent, 387-393 signFramedContent *)
Definition signAuthenticatedContent (cs : N) (signKey rnd : bytes) (wf : N) (content : framedContent) (ctx : groupContext)
  : res authenticatedContent :=
  let! raw := putFramedContentTBS wf content ctx in
  let! signature := signWithLabel cs signKey rnd (str "FramedContentTBS") raw in
  Ok (mkAuthenticatedContent wf content (mkAuthData signature [])).

(** framing.go:319-321 authenticatedContent.verifySignature, 379-385
    framedContentAuthData.verifySignature *)
Definition authContentVerifySignature (ac : authenticatedContent) (verifKey : bytes) (ctx : groupContext) : res bool :=
  falseOnPutErr (putFramedContentTBS (ac_wireFormat ac) (ac_content ac) ctx) (fun raw =>
    verifyWithLabel (gc_cipherSuite ctx) verifKey (str "FramedContentTBS") raw (ad_signature (ac_auth ac))).

(** framing.go:323-341 generateProposalRef *)
Definition generateProposalRef (cs : N) (ac : authenticatedContent) : res bytes :=
  match fc_body (ac_content ac) with
  | BProposal _ =>
    let! raw := putAuthenticatedContent ac in
    refHash cs (str "MLS 1.0 Proposal Reference") raw
  | _ => Panic "mls: AuthenticatedContent is not a proposal"
  end.

(** framing.go:372-377 framedContentAuthData.verifyConfirmationTag *)
Definition authDataVerifyConfirmationTag (cs : N) (a : authData) (confirmationKey confirmedHash : bytes) : res bool :=
  if lenN (ad_confirmationTag a) =? 0 then Ok false
  else verifyMAC cs confirmationKey confirmedHash (ad_confirmationTag a).

(** framing.go:418-427 signPublicMessage *)
Definition signPublicMessage (cs : N) (signKey rnd : bytes) (content : framedContent) (ctx : groupContext) : res publicMessage :=
  let! ac := signAuthenticatedContent cs signKey rnd wireFormatMLSPublicMessage content ctx in
  Ok (mkPublicMessage (ac_content ac) (ac_auth ac) []).

(** framing.go:457-463 publicMessage.authenticatedContent *)
Definition pubMsgAuthContent (m : publicMessage) : authenticatedContent :=
  mkAuthenticatedContent wireFormatMLSPublicMessage (pubm_content m) (pubm_auth m).

Definition sender_isMember (s : sender) : bool := match s with SMember _ => true | _ => false end.

(** framing.go:472-482 signMembershipTag *)
Definition signMembershipTag (cs : N) (membershipKey : bytes) (ctx : groupContext) (m : publicMessage) : res publicMessage :=
  if negb (sender_isMember (fc_sender (pubm_content m))) then Ok m else
  let! raw := putAuthenticatedContentTBM wireFormatMLSPublicMessage (pubm_content m) ctx (pubm_auth m) in
  let! tag := signMAC cs membershipKey raw in
  Ok (mkPublicMessage (pubm_content m) (pubm_auth m) tag).

(** framing.go:484-493 verifyMembershipTag *)
Definition verifyMembershipTag (membershipKey : bytes) (ctx : groupContext) (m : publicMessage) : res bool :=
  if negb (sender_isMember (fc_sender (pubm_content m))) then Ok true else
  falseOnPutErr (putAuthenticatedContentTBM wireFormatMLSPublicMessage (pubm_content m) ctx (pubm_auth m)) (fun raw =>
    verifyMAC (gc_cipherSuite ctx) membershipKey raw (pubm_membershipTag m)).

(** framing.go:757-769 signPrivateMessageContent *)
Definition signPrivateMessageContent (cs : N) (signKey rnd : bytes) (content : framedContent) (ctx : groupContext)
  : res privateMessageContent :=
  let! ac := signAuthenticatedContent cs signKey rnd wireFormatMLSPrivateMessage content ctx in
  Ok (mkPrivateMessageContent (fc_body content) (ac_auth ac)).

(** framing.go:749-755 privateMessageContent.authenticatedContent *)
Definition privContentAuthContent (pc : privateMessageContent) (content : framedContent) : authenticatedContent :=
  mkAuthenticatedContent wireFormatMLSPrivateMessage content (pmc_auth pc).

(** framing.go:660-674 privateMessage.authenticatedContent *)
Definition privMsgAuthContent (m : privateMessage) (sd : senderData) (pc : privateMessageContent) : authenticatedContent :=
  privContentAuthContent pc
    (mkFramedContent (privm_groupID m) (privm_epoch m) (SMember (sd_leafIndex sd)) (privm_authenticatedData m) (pmc_body pc)).

(** framing.go:653-655: xor the four bytes of the guard into the nonce *)
Fixpoint xorGuard (nonce guard : bytes) : res bytes :=
  match guard, nonce with
  | [], _ => Ok nonce
  | g :: gs, n :: ns => let! r := xorGuard ns gs in Ok (n2b (N.lxor (b2n n) (b2n g)) :: r)
  | _ :: _, [] => Panic "index out of range"
  end.

(** framing.go:643-658 derivePrivateMessageKeyAndNonce *)
Definition derivePrivateMessageKeyAndNonce (cs : N) (secret : ratchetSecret) (reuseGuard : bytes) : res (bytes * bytes) :=
  let! key := deriveKey cs secret in
  let! nonce := deriveNonce cs secret in
  let! nonce' := xorGuard nonce reuseGuard in
  Ok (key, nonce').

(** framing.go:880-887 sampleCiphertext *)
Definition sampleCiphertext (cs : N) (ciphertext : bytes) : res bytes :=
  let! n := extractSize cs in
  Ok (if lenN ciphertext <? n then ciphertext else firstn (N.to_nat n) ciphertext).

(** framing.go:868-872 expandSenderDataKey, 874-878 expandSenderDataNonce *)
Definition expandSenderDataKey (cs : N) (senderDataSecret ciphertext : bytes) : res bytes :=
  let! sample := sampleCiphertext cs ciphertext in
  let! nk := suiteKeySize cs in
  expandWithLabel cs senderDataSecret (str "key") sample nk.
Definition expandSenderDataNonce (cs : N) (senderDataSecret ciphertext : bytes) : res bytes :=
  let! sample := sampleCiphertext cs ciphertext in
  let! nn := suiteNonceSize cs in
  expandWithLabel cs senderDataSecret (str "nonce") sample nn.

(** framing.go:771-802 encryptPrivateMessageContent *)
Definition encryptPrivateMessageContent (cs : N) (secret : ratchetSecret) (content : framedContent)
    (pc : privateMessageContent) (reuseGuard : bytes) : res bytes :=
  let! plaintext := putPrivateMessageContent pc in
  let! (key, nonce) := derivePrivateMessageKeyAndNonce cs secret reuseGuard in
  let! aad := putPrivateContentAAD (fc_groupID content) (fc_epoch content) (body_type (fc_body content)) (fc_authenticatedData content) in
  aeadSeal cs key nonce aad plaintext.

(** framing.go:804-836 encryptSenderData *)
Definition encryptSenderData (cs : N) (senderDataSecret : bytes) (sd : senderData) (content : framedContent) (ciphertext : bytes)
  : res bytes :=
  let! key := expandSenderDataKey cs senderDataSecret ciphertext in
  let! nonce := expandSenderDataNonce cs senderDataSecret ciphertext in
  let! aad := putSenderDataAAD (fc_groupID content) (fc_epoch content) (body_type (fc_body content)) in
  let! raw := putSenderData sd in
  aeadSeal cs key nonce aad raw.

(** framing.go:514-531 encryptPrivateMessage *)
Definition encryptPrivateMessage (cs : N) (secret : ratchetSecret) (senderDataSecret : bytes) (content : framedContent)
    (pc : privateMessageContent) (sd : senderData) : res privateMessage :=
  let! ciphertext := encryptPrivateMessageContent cs secret content pc (sd_reuseGuard sd) in
  let! encSenderData := encryptSenderData cs senderDataSecret sd content ciphertext in
  Ok (mkPrivateMessage (fc_groupID content) (fc_epoch content) (body_type (fc_body content))
        (fc_authenticatedData content) encSenderData ciphertext).

(** framing.go:561-598 decryptSenderData *)
Definition decryptSenderData (cs : N) (m : privateMessage) (senderDataSecret : bytes) : res senderData :=
  let! key := expandSenderDataKey cs senderDataSecret (privm_ciphertext m) in
  let! nonce := expandSenderDataNonce cs senderDataSecret (privm_ciphertext m) in
  let! aad := putSenderDataAAD (privm_groupID m) (privm_epoch m) (privm_contentType m) in
  let! raw := aeadOpen cs key nonce aad (privm_encryptedSenderData m) in
  unmarshal getSenderData raw.

(** framing.go:600-641 decryptContent *)
Definition decryptContent (cs : N) (m : privateMessage) (secret : ratchetSecret) (reuseGuard : bytes) : res privateMessageContent :=
  let! (key, nonce) := derivePrivateMessageKeyAndNonce cs secret reuseGuard in
  let! aad := putPrivateContentAAD (privm_groupID m) (privm_epoch m) (privm_contentType m) (privm_authenticatedData m) in
  let! raw := aeadOpen cs key nonce aad (privm_ciphertext m) in
  let '(r, rest) := getPrivateMessageContent (privm_contentType m) raw in
  let! content := r in
  let! _ := guard (forallb (fun v => b2n v =? 0) rest) "mls: padding contains non-zero bytes" in
  Ok content.

End WithCrypto.
