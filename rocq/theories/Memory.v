(** The memory that decoding takes (mls.go:54-94 and the unmarshal methods).

    The decoders of Codec.v once more, with a count of what they allocate: the
    bytes of the buffers made for opaque vectors (mls.go:60) and the elements
    appended to slices.  The structures of constant size, and the room that
    append keeps in reserve, are not counted.  MemoryFacts.v shows that apart
    from the count these decoders are those of Codec.v. *)
From Verif Require Export Codec.

(** A decoder with the memory it has taken *)
Definition mreader (A : Type) : Type := bytes -> (res A * bytes) * N.

Definition m_ret {A} (a : A) : mreader A := fun s => ((Ok a, s), 0).
Definition m_err {A} (e : string) : mreader A := fun s => ((Err e, s), 0).
Definition m_panic {A} (p : string) : mreader A := fun s => ((Panic p, s), 0).

(** A decoder that allocates nothing *)
Definition free {A} (r : reader A) : mreader A := fun s => (r s, 0).

Definition m_bind {A B} (r : mreader A) (k : A -> mreader B) : mreader B := fun s =>
  let '(o, c) := r s in
  match o with
  | (Ok a, s') => let '(o', c') := k a s' in (o', c + c')
  | (Err e, s') => ((Err e, s'), c)
  | (Panic p, s') => ((Panic p, s'), c)
  | (Hang, s') => ((Hang, s'), c)
  end.

Notation "x <~ r ;; k" := (m_bind r (fun x => k))
  (at level 61, r at next level, right associativity).

(** mls.go:54-67 readOpaqueVec: the buffer is made before the input is known
    to be long enough. *)
Definition memOpaqueVec : mreader bytes :=
  n <~ free readVarint ;; fun s => (readN n s, n).

(** mls.go:88-92, the loop of readVector; its closures append one element each
    time they succeed. *)
Fixpoint memVectorLoop {A} (fuel : nat) (f : mreader A) (ss : bytes) : res (list A) * N :=
  match ss with
  | [] => (Ok [], 0)
  | _ :: _ =>
    match fuel with
    | O => (Hang, 0)
    | S fuel' =>
      let '(o, c) := f ss in
      match o with
      | (Ok a, ss') => let '(r, c') := memVectorLoop fuel' f ss' in (rmap (cons a) r, c + 1 + c')
      | (Err e, _) => (Err e, c)
      | (Panic p, _) => (Panic p, c)
      | (Hang, _) => (Hang, c)
      end
    end
  end.

(** mls.go:78-94 readVector; ReadBytes does not copy. *)
Definition memVector {A} (f : mreader A) : mreader (list A) :=
  n <~ free readVarint ;;
  vec <~ free (readN n) ;;
  fun s => let '(r, c) := memVectorLoop (List.length vec) f vec in ((r, s), c).

(** crypto.go:41-66 Credential.unmarshal *)
Definition memCredential : mreader credential :=
  t <~ free readUint16 ;;
  if t =? 1 then
    id <~ memOpaqueVec ;; m_ret (mkCredential t id [])
  else if t =? 2 then
    certs <~ memVector memOpaqueVec ;; m_ret (mkCredential t [] certs)
  else m_err "mls: invalid credential type".

(** crypto.go:87-93 hpkeCiphertext.unmarshal *)
Definition memHpkeCiphertext : mreader hpkeCiphertext :=
  k <~ memOpaqueVec ;; c <~ memOpaqueVec ;; m_ret (mkHpkeCiphertext k c).

(** tree.go:243-254 unmarshalExtensionVec *)
Definition memExtension : mreader extension :=
  t <~ free readUint16 ;; d <~ memOpaqueVec ;; m_ret (mkExtension t d).
Definition memExtensionVec : mreader (list extension) := memVector memExtension.

(** tree.go:91-157 capabilities.unmarshal *)
Definition memCapabilities : mreader capabilities :=
  v <~ memVector (free readUint16) ;;
  c <~ memVector (free readUint16) ;;
  e <~ memVector (free readUint16) ;;
  p <~ memVector (free readUint16) ;;
  cr <~ memVector (free readUint16) ;;
  m_ret (mkCapabilities v c e p cr).

(** tree.go:287-329 leafNode.unmarshal *)
Definition memLeafNode : mreader leafNode :=
  ek <~ memOpaqueVec ;;
  sk <~ memOpaqueVec ;;
  cred <~ memCredential ;;
  caps <~ memCapabilities ;;
  src <~ free (getTag 1 [1; 2; 3]) ;;
  lt <~ (if src =? 1 then l <~ free getLifetime ;; m_ret (Some l) else m_ret None) ;;
  ph <~ (if src =? 3 then memOpaqueVec else m_ret []) ;;
  exts <~ memExtensionVec ;;
  sig <~ memOpaqueVec ;;
  m_ret (mkLeafNode ek sk cred caps src lt ph exts sig).

(** tree.go:18-31 parentNode.unmarshal *)
Definition memParentNode : mreader parentNode :=
  ek <~ memOpaqueVec ;; ph <~ memOpaqueVec ;; u <~ memVector (free readUint32) ;;
  m_ret (mkParentNode ek ph u).

(** tree.go:573-590 node.unmarshal *)
Definition memNode : mreader node :=
  t <~ free (getTag 1 [1; 2]) ;;
  if t =? 1 then l <~ memLeafNode ;; m_ret (NLeaf l)
  else if t =? 2 then p <~ memParentNode ;; m_ret (NParent p)
  else m_panic "unreachable".

(** tree.go:623-636, the closure reading one optional node *)
Definition memOptionalNode : mreader (option node) :=
  has <~ free readOptional ;;
  if has then n <~ memNode ;; m_ret (Some n) else m_ret None.

(** tree.go:621-648 ratchetTree.unmarshal *)
Definition memRatchetTree : mreader ratchetTree :=
  l <~ memVector memOptionalNode ;;
  match padCount (length l) (lenN l) with
  | Ok k => fun s => ((Ok (l ++ repeat None k), s), N.of_nat k)
  | Err e => m_err e
  | Panic p => m_panic p
  | Hang => fun s => ((Hang, s), 0)
  end.

(** tree.go:465-480 updatePathNode.unmarshal *)
Definition memUpdatePathNode : mreader updatePathNode :=
  ek <~ memOpaqueVec ;; s <~ memVector memHpkeCiphertext ;; m_ret (mkUpdatePathNode ek s).

(** tree.go:520-535 updatePath.unmarshal *)
Definition memUpdatePath : mreader updatePath :=
  l <~ memLeafNode ;; n <~ memVector memUpdatePathNode ;; m_ret (mkUpdatePath l n).

(** key_package.go:74-76: a failed read of the signature is not reported *)
Definition memOpaqueVecIgnoringFailure : mreader bytes := fun s =>
  match memOpaqueVec s with
  | ((Err _, s'), c) => ((Ok [], s'), c)
  | r => r
  end.

(** key_package.go:50-79 KeyPackage.unmarshal *)
Definition memKeyPackage : mreader keyPackage :=
  v <~ free readUint16 ;;
  cs <~ free readUint16 ;;
  ik <~ memOpaqueVec ;;
  if negb (v =? 1) then m_err "mls: invalid protocol version" else
  l <~ memLeafNode ;;
  exts <~ memExtensionVec ;;
  sig <~ memOpaqueVecIgnoringFailure ;;
  m_ret (mkKeyPackage v cs ik l exts sig).

(** key_schedule.go:236-264 preSharedKeyID.unmarshal *)
Definition memPskID : mreader preSharedKeyID :=
  t <~ free (getTag 1 [1; 2]) ;;
  if t =? 1 then
    id <~ memOpaqueVec ;;
    nonce <~ memOpaqueVec ;; m_ret (PskExternal id nonce)
  else if t =? 2 then
    u <~ free (getTag 1 [1; 2; 3]) ;;
    g <~ memOpaqueVec ;;
    e <~ free readUint64 ;;
    nonce <~ memOpaqueVec ;; m_ret (PskResumption u g e nonce)
  else m_panic "unreachable".

(** key_schedule.go:20-44 groupContext.unmarshal *)
Definition memGroupContext : mreader groupContext :=
  v <~ free readUint16 ;;
  cs <~ free readUint16 ;;
  g <~ memOpaqueVec ;;
  e <~ free readUint64 ;;
  th <~ memOpaqueVec ;;
  cth <~ memOpaqueVec ;;
  if negb (v =? 1) then m_err "mls: invalid protocol version" else
  exts <~ memExtensionVec ;;
  m_ret (mkGroupContext v cs g e th cth exts).

(** proposal.go:167-181 reInit.unmarshal *)
Definition memReInit : mreader reInit :=
  g <~ memOpaqueVec ;; v <~ free readUint16 ;; cs <~ free readUint16 ;; exts <~ memExtensionVec ;;
  m_ret (mkReInit g v cs exts).

(** proposal.go:51-81 proposal.unmarshal *)
Definition memProposal : mreader proposal :=
  t <~ free (getTag 2 [1; 2; 3; 4; 5; 6; 7]) ;;
  if t =? 1 then k <~ memKeyPackage ;; m_ret (PAdd k)
  else if t =? 2 then l <~ memLeafNode ;; m_ret (PUpdate l)
  else if t =? 3 then i <~ free readUint32 ;; m_ret (PRemove i)
  else if t =? 4 then p <~ memPskID ;; m_ret (PPsk p)
  else if t =? 5 then r <~ memReInit ;; m_ret (PReInit r)
  else if t =? 6 then k <~ memOpaqueVec ;; m_ret (PExternalInit k)
  else if t =? 7 then e <~ memExtensionVec ;; m_ret (PGroupContextExtensions e)
  else m_panic "unreachable".

(** proposal.go:261-280 proposalOrRef.unmarshal *)
Definition memProposalOrRef : mreader proposalOrRef :=
  t <~ free (getTag 1 [1; 2]) ;;
  if t =? 1 then p <~ memProposal ;; m_ret (PorProposal p)
  else if t =? 2 then r <~ memOpaqueVec ;; m_ret (PorReference r)
  else m_panic "unreachable".

(** group.go:856-882 commit.unmarshal *)
Definition memCommit : mreader commit :=
  ps <~ memVector memProposalOrRef ;;
  has <~ free readOptional ;;
  path <~ (if has then u <~ memUpdatePath ;; m_ret (Some u) else m_ret None) ;;
  m_ret (mkCommit ps path).

(** group.go:915-917: a failed read of one of the three last fields is not
    reported *)
Definition memGroupInfoTail : mreader (bytes * N * bytes) := fun s =>
  match memOpaqueVec s with
  | ((Ok tag, s1), c) =>
    match readUint32 s1 with
    | (Ok signer, s2) =>
      match memOpaqueVec s2 with
      | ((Ok sig, s3), d) => ((Ok (tag, signer, sig), s3), c + d)
      | ((Err _, s3), d) => ((Ok (tag, signer, []), s3), c + d)
      | ((Panic p, s3), d) => ((Panic p, s3), c + d)
      | ((Hang, s3), d) => ((Hang, s3), c + d)
      end
    | (Err _, s2) => ((Ok (tag, 0, []), s2), c)
    | (Panic p, s2) => ((Panic p, s2), c)
    | (Hang, s2) => ((Hang, s2), c)
    end
  | ((Err _, s1), c) => ((Ok ([], 0, []), s1), c)
  | ((Panic p, s1), c) => ((Panic p, s1), c)
  | ((Hang, s1), c) => ((Hang, s1), c)
  end.

(** group.go:902-920 groupInfo.unmarshal *)
Definition memGroupInfo : mreader groupInfo :=
  c <~ memGroupContext ;;
  exts <~ memExtensionVec ;;
  t <~ memGroupInfoTail ;;
  m_ret (mkGroupInfo c exts (fst (fst t)) (snd (fst t)) (snd t)).

(** group.go:1009-1031 groupSecrets.unmarshal *)
Definition memGroupSecrets : mreader groupSecrets :=
  j <~ memOpaqueVec ;;
  has <~ free readOptional ;;
  path <~ (if has then p <~ memOpaqueVec ;; m_ret (Some p) else m_ret None) ;;
  psks <~ memVector memPskID ;;
  m_ret (mkGroupSecrets j path psks).

(** group.go:1225-1234 encryptedGroupSecrets.unmarshal *)
Definition memEncryptedGroupSecrets : mreader encryptedGroupSecrets :=
  m <~ memOpaqueVec ;; h <~ memHpkeCiphertext ;; m_ret (mkEncryptedGroupSecrets m h).

(** group.go:1112-1136 Welcome.unmarshal *)
Definition memWelcome : mreader welcome :=
  cs <~ free readUint16 ;;
  secs <~ memVector memEncryptedGroupSecrets ;;
  info <~ memOpaqueVec ;;
  m_ret (mkWelcome cs secs info).

(** framing.go:164-178 and 714-727: the content for a given content type *)
Definition memBody (ct : N) : mreader body :=
  if ct =? 1 then d <~ memOpaqueVec ;; m_ret (BApplication d)
  else if ct =? 2 then p <~ memProposal ;; m_ret (BProposal p)
  else if ct =? 3 then c <~ memCommit ;; m_ret (BCommit c)
  else m_panic "unreachable".

(** framing.go:148-179 framedContent.unmarshal *)
Definition memFramedContent : mreader framedContent :=
  g <~ memOpaqueVec ;;
  e <~ free readUint64 ;;
  s <~ free getSender ;;
  ad <~ memOpaqueVec ;;
  ct <~ free getContentType ;;
  b <~ memBody ct ;;
  m_ret (mkFramedContent g e s ad b).

(** framing.go:348-362 framedContentAuthData.unmarshal *)
Definition memAuthData (ct : N) : mreader authData :=
  sig <~ memOpaqueVec ;;
  tag <~ (if ct =? 3 then memOpaqueVec else m_ret []) ;;
  m_ret (mkAuthData sig tag).

(** framing.go:429-446 publicMessage.unmarshal *)
Definition memPublicMessage : mreader publicMessage :=
  c <~ memFramedContent ;;
  a <~ memAuthData (body_type (fc_body c)) ;;
  t <~ (match fc_sender c with SMember _ => memOpaqueVec | _ => m_ret [] end) ;;
  m_ret (mkPublicMessage c a t).

(** framing.go:533-550 privateMessage.unmarshal *)
Definition memPrivateMessage : mreader privateMessage :=
  g <~ memOpaqueVec ;;
  e <~ free readUint64 ;;
  ct <~ free getContentType ;;
  ad <~ memOpaqueVec ;;
  esd <~ memOpaqueVec ;;
  c <~ memOpaqueVec ;;
  m_ret (mkPrivateMessage g e ct ad esd c).

(** framing.go:710-733 privateMessageContent.unmarshal *)
Definition memPrivateMessageContent (ct : N) : mreader privateMessageContent :=
  b <~ memBody ct ;; a <~ memAuthData ct ;; m_ret (mkPrivateMessageContent b a).

(** framing.go:209-242 mlsMessage.unmarshal *)
Definition memMlsMessage : mreader mlsMessage :=
  v <~ free readUint16 ;;
  if negb (v =? 1) then m_err "mls: invalid protocol version" else
  wf <~ free (getTag 2 [1; 2; 3; 4; 5]) ;;
  if wf =? 1 then m <~ memPublicMessage ;; m_ret (MPublic m)
  else if wf =? 2 then m <~ memPrivateMessage ;; m_ret (MPrivate m)
  else if wf =? 3 then m <~ memWelcome ;; m_ret (MWelcome m)
  else if wf =? 4 then m <~ memGroupInfo ;; m_ret (MGroupInfo m)
  else if wf =? 5 then m <~ memKeyPackage ;; m_ret (MKeyPackage m)
  else m_panic "unreachable".

(** The memory taken by a decoder on an input *)
Definition taken {A} (r : mreader A) (raw : bytes) : N := snd (r raw).
