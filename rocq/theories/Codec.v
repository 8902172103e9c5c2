(** Encoders ([put...]) and decoders ([get...]) of every message type.

    A decoder that validates a tag and then switches on it has a panicking
    default branch exactly where the Go code has [panic("unreachable")]. *)
From Verif Require Export Types.

(** A tag check: the [unmarshal] methods of the enumeration types. *)
Definition getTag (k : nat) (valid : list N) : reader N :=
  t <- readUint k ;;
  if existsb (N.eqb t) valid then rd_ret t else rd_err "invalid tag".

(** ** crypto.go *)

(** crypto.go:41-66 Credential.unmarshal *)
Definition getCredential : reader credential :=
  t <- readUint16 ;;
  if t =? 1 then
    id <- readOpaqueVec ;; rd_ret (mkCredential t id [])
  else if t =? 2 then
    certs <- readVector readOpaqueVec ;; rd_ret (mkCredential t [] certs)
  else rd_err "mls: invalid credential type".

(** crypto.go:68-80 Credential.marshal *)
Definition putCredential (c : credential) : W :=
  addUint16 (cred_type c) +++
  (if cred_type c =? 1 then writeOpaqueVec (cred_identity c)
   else if cred_type c =? 2 then writeVector writeOpaqueVec (cred_certificates c)
   else Panic "unreachable").

(** crypto.go:87-93, 95-98 hpkeCiphertext *)
Definition getHpkeCiphertext : reader hpkeCiphertext :=
  k <- readOpaqueVec ;; c <- readOpaqueVec ;; rd_ret (mkHpkeCiphertext k c).
Definition putHpkeCiphertext (h : hpkeCiphertext) : W :=
  writeOpaqueVec (hc_kemOutput h) +++ writeOpaqueVec (hc_ciphertext h).

(** ** tree.go *)

(** tree.go:243-254 unmarshalExtensionVec, 256-262 marshalExtensionVec *)
Definition getExtension : reader extension :=
  t <- readUint16 ;; d <- readOpaqueVec ;; rd_ret (mkExtension t d).
Definition putExtension (e : extension) : W :=
  addUint16 (ext_type e) +++ writeOpaqueVec (ext_data e).
Definition getExtensionVec : reader (list extension) := readVector getExtension.
Definition putExtensionVec (l : list extension) : W := writeVector putExtension l.

(** tree.go:264-271 findExtensionData.  The result is [None] for nil. *)
Fixpoint findExtensionData (exts : list extension) (t : N) : option bytes :=
  match exts with
  | [] => None
  | e :: r => if ext_type e =? t then Some (ext_data e) else findExtensionData r t
  end.

(** tree.go:91-157 capabilities.unmarshal, 159-179 capabilities.marshal *)
Definition getCapabilities : reader capabilities :=
  v <- readVector readUint16 ;;
  c <- readVector readUint16 ;;
  e <- readVector readUint16 ;;
  p <- readVector readUint16 ;;
  cr <- readVector readUint16 ;;
  rd_ret (mkCapabilities v c e p cr).
Definition putCapabilities (c : capabilities) : W :=
  writeVector addUint16 (caps_versions c) +++
  writeVector addUint16 (caps_cipherSuites c) +++
  writeVector addUint16 (caps_extensions c) +++
  writeVector addUint16 (caps_proposals c) +++
  writeVector addUint16 (caps_credentials c).

(** tree.go:194-200, 202-205 lifetime *)
Definition getLifetime : reader lifetime :=
  a <- readUint64 ;; b <- readUint64 ;; rd_ret (mkLifetime a b).
Definition putLifetime (l : lifetime) : W :=
  addUint64 (lt_notBefore l) +++ addUint64 (lt_notAfter l).

(** tree.go:287-329 leafNode.unmarshal *)
Definition getLeafNode : reader leafNode :=
  ek <- readOpaqueVec ;;
  sk <- readOpaqueVec ;;
  cred <- getCredential ;;
  caps <- getCapabilities ;;
  src <- getTag 1 [1; 2; 3] ;;
  lt <- (if src =? 1 then l <- getLifetime ;; rd_ret (Some l) else rd_ret None) ;;
  ph <- (if src =? 3 then readOpaqueVec else rd_ret []) ;;
  exts <- getExtensionVec ;;
  sig <- readOpaqueVec ;;
  rd_ret (mkLeafNode ek sk cred caps src lt ph exts sig).

(** tree.go:331-344 leafNode.marshalBase: a nil lifetime is dereferenced. *)
Definition putLeafNodeBase (l : leafNode) : W :=
  writeOpaqueVec (ln_encryptionKey l) +++
  writeOpaqueVec (ln_signatureKey l) +++
  putCredential (ln_credential l) +++
  putCapabilities (ln_capabilities l) +++
  addUint8 (ln_source l) +++
  (if ln_source l =? 1 then
     match ln_lifetime l with Some lt => putLifetime lt | None => Panic "nil pointer dereference" end
   else if ln_source l =? 3 then writeOpaqueVec (ln_parentHash l)
   else Ok []) +++
  putExtensionVec (ln_extensions l).

(** tree.go:346-349 leafNode.marshal *)
Definition putLeafNode (l : leafNode) : W :=
  putLeafNodeBase l +++ writeOpaqueVec (ln_signature l).

(** tree.go:351-366 leafNodeTBS.marshal *)
Definition putLeafNodeTBS (l : leafNode) (groupID : bytes) (li : N) : W :=
  putLeafNodeBase l +++
  (if (ln_source l =? 2) || (ln_source l =? 3)
   then writeOpaqueVec groupID +++ addUint32 li
   else Ok []).

(** tree.go:18-31, 33-39 parentNode *)
Definition getParentNode : reader parentNode :=
  ek <- readOpaqueVec ;; ph <- readOpaqueVec ;; u <- readVector readUint32 ;;
  rd_ret (mkParentNode ek ph u).
Definition putParentNode (p : parentNode) : W :=
  writeOpaqueVec (pn_encryptionKey p) +++
  writeOpaqueVec (pn_parentHash p) +++
  writeVector addUint32 (pn_unmergedLeaves p).

(** tree.go:51-57 marshalParentHashInput *)
Definition putParentHashInput (encryptionKey parentHash originalSiblingTreeHash : bytes) : W :=
  writeOpaqueVec encryptionKey +++ writeOpaqueVec parentHash +++ writeOpaqueVec originalSiblingTreeHash.

(** tree.go:573-590, 592-602 node *)
Definition getNode : reader node :=
  t <- getTag 1 [1; 2] ;;
  if t =? 1 then l <- getLeafNode ;; rd_ret (NLeaf l)
  else if t =? 2 then p <- getParentNode ;; rd_ret (NParent p)
  else rd_panic "unreachable".
Definition putNode (n : node) : W :=
  match n with
  | NLeaf l => addUint8 1 +++ putLeafNode l
  | NParent p => addUint8 2 +++ putParentNode p
  end.

(** tree.go:623-636, the closure reading one optional node *)
Definition getOptionalNode : reader (option node) :=
  has <- readOptional ;;
  if has then n <- getNode ;; rd_ret (Some n) else rd_ret None.

(** tree.go:656-662, the closure writing one optional node *)
Definition putOptionalNode (o : option node) : W :=
  match o with
  | Some n => writeOptional true +++ putNode n
  | None => writeOptional false
  end.

(** tree_math.go:207-209 isPowerOf2, on a uint32 argument *)
Definition isPowerOf2 (x : N) : bool :=
  negb (x =? 0) && (N.land x (x - 1) =? 0).

(** tree.go:643-645, the loop padding the tree: [k] is the current length and
    the result is the number of blanks to append.  [isPowerOf2] is applied to
    the length truncated to 32 bits.  The loop needs at most [k] iterations
    (there is a power of two in (k, 2k+1]), or one when [k] is 0. *)
Fixpoint padCount (fuel : nat) (k : N) : res nat :=
  if isPowerOf2 ((k + 1) mod 2^32) then Ok O
  else match fuel with
       | O => Hang
       | S f => rmap S (padCount f (k + 1))
       end.

(** tree.go:621-648 ratchetTree.unmarshal *)
Definition getRatchetTree : reader ratchetTree :=
  l <- readVector getOptionalNode ;;
  match padCount (length l) (lenN l) with
  | Ok k => rd_ret (l ++ repeat None k)
  | Err e => rd_err e
  | Panic p => rd_panic p
  | Hang => fun s => (Hang, s)
  end.

(** tree.go:651-654, dropping the trailing blanks *)
Fixpoint trimBlanks (t : ratchetTree) : ratchetTree :=
  match t with
  | [] => []
  | o :: r => match trimBlanks r, o with
              | [], None => []
              | r', _ => o :: r'
              end
  end.

(** tree.go:650-663 ratchetTree.marshal *)
Definition putRatchetTree (t : ratchetTree) : W := writeVector putOptionalNode (trimBlanks t).

(** tree.go:465-480, 482-487 updatePathNode *)
Definition getUpdatePathNode : reader updatePathNode :=
  ek <- readOpaqueVec ;; s <- readVector getHpkeCiphertext ;; rd_ret (mkUpdatePathNode ek s).
Definition putUpdatePathNode (n : updatePathNode) : W :=
  writeOpaqueVec (upn_encryptionKey n) +++ writeVector putHpkeCiphertext (upn_encryptedPathSecret n).

(** tree.go:520-535, 537-542 updatePath *)
Definition getUpdatePath : reader updatePath :=
  l <- getLeafNode ;; n <- readVector getUpdatePathNode ;; rd_ret (mkUpdatePath l n).
Definition putUpdatePath (u : updatePath) : W :=
  putLeafNode (up_leafNode u) +++ writeVector putUpdatePathNode (up_nodes u).

(** ** key_package.go *)

(** key_package.go:74-76: a failed read of the signature is not reported
    ([return err] with [err == nil]); the field keeps its zero value and the
    input keeps what the failed read has consumed. *)
Definition readOpaqueVecIgnoringFailure : reader bytes := fun s =>
  match readOpaqueVec s with
  | (Err _, s') => (Ok [], s')
  | r => r
  end.

(** key_package.go:50-79 KeyPackage.unmarshal *)
Definition getKeyPackage : reader keyPackage :=
  v <- readUint16 ;;
  cs <- readUint16 ;;
  ik <- readOpaqueVec ;;
  if negb (v =? 1) then rd_err "mls: invalid protocol version" else
  l <- getLeafNode ;;
  exts <- getExtensionVec ;;
  sig <- readOpaqueVecIgnoringFailure ;;
  rd_ret (mkKeyPackage v cs ik l exts sig).

(** key_package.go:81-87 KeyPackage.marshalTBS *)
Definition putKeyPackageTBS (k : keyPackage) : W :=
  addUint16 (kp_version k) +++ addUint16 (kp_cipherSuite k) +++
  writeOpaqueVec (kp_initKey k) +++ putLeafNode (kp_leafNode k) +++
  putExtensionVec (kp_extensions k).

(** key_package.go:89-92 KeyPackage.marshal *)
Definition putKeyPackage (k : keyPackage) : W :=
  putKeyPackageTBS k +++ writeOpaqueVec (kp_signature k).

(** ** key_schedule.go *)

(** key_schedule.go:236-264 preSharedKeyID.unmarshal, 266-279 marshal *)
Definition getPskID : reader preSharedKeyID :=
  t <- getTag 1 [1; 2] ;;
  if t =? 1 then
    id <- readOpaqueVec ;;
    nonce <- readOpaqueVec ;; rd_ret (PskExternal id nonce)
  else if t =? 2 then
    u <- getTag 1 [1; 2; 3] ;;
    g <- readOpaqueVec ;;
    e <- readUint64 ;;
    nonce <- readOpaqueVec ;; rd_ret (PskResumption u g e nonce)
  else rd_panic "unreachable".
Definition putPskID (p : preSharedKeyID) : W :=
  match p with
  | PskExternal id nonce => addUint8 1 +++ writeOpaqueVec id +++ writeOpaqueVec nonce
  | PskResumption u g e nonce =>
    addUint8 2 +++ addUint8 u +++ writeOpaqueVec g +++ addUint64 e +++ writeOpaqueVec nonce
  end.

(** key_schedule.go:320-324 pskLabel.marshal *)
Definition putPskLabel (id : preSharedKeyID) (index count : N) : W :=
  putPskID id +++ addUint16 index +++ addUint16 count.

(** key_schedule.go:20-44 groupContext.unmarshal, 46-54 marshal *)
Definition getGroupContext : reader groupContext :=
  v <- readUint16 ;;
  cs <- readUint16 ;;
  g <- readOpaqueVec ;;
  e <- readUint64 ;;
  th <- readOpaqueVec ;;
  cth <- readOpaqueVec ;;
  if negb (v =? 1) then rd_err "mls: invalid protocol version" else
  exts <- getExtensionVec ;;
  rd_ret (mkGroupContext v cs g e th cth exts).
Definition putGroupContext (c : groupContext) : W :=
  addUint16 (gc_version c) +++ addUint16 (gc_cipherSuite c) +++ writeOpaqueVec (gc_groupID c) +++
  addUint64 (gc_epoch c) +++ writeOpaqueVec (gc_treeHash c) +++
  writeOpaqueVec (gc_confirmedTranscriptHash c) +++ putExtensionVec (gc_extensions c).

(** ** proposal.go *)

(** proposal.go:167-181, 183-188 reInit *)
Definition getReInit : reader reInit :=
  g <- readOpaqueVec ;; v <- readUint16 ;; cs <- readUint16 ;; exts <- getExtensionVec ;;
  rd_ret (mkReInit g v cs exts).
Definition putReInit (r : reInit) : W :=
  writeOpaqueVec (ri_groupID r) +++ addUint16 (ri_version r) +++ addUint16 (ri_cipherSuite r) +++
  putExtensionVec (ri_extensions r).

(** proposal.go:51-81 proposal.unmarshal *)
Definition getProposal : reader proposal :=
  t <- getTag 2 [1; 2; 3; 4; 5; 6; 7] ;;
  if t =? 1 then k <- getKeyPackage ;; rd_ret (PAdd k)
  else if t =? 2 then l <- getLeafNode ;; rd_ret (PUpdate l)
  else if t =? 3 then i <- readUint32 ;; rd_ret (PRemove i)
  else if t =? 4 then p <- getPskID ;; rd_ret (PPsk p)
  else if t =? 5 then r <- getReInit ;; rd_ret (PReInit r)
  else if t =? 6 then k <- readOpaqueVec ;; rd_ret (PExternalInit k)
  else if t =? 7 then e <- getExtensionVec ;; rd_ret (PGroupContextExtensions e)
  else rd_panic "unreachable".

(** proposal.go:14-22 proposalType *)
Definition proposal_type (p : proposal) : N :=
  match p with
  | PAdd _ => 1 | PUpdate _ => 2 | PRemove _ => 3 | PPsk _ => 4
  | PReInit _ => 5 | PExternalInit _ => 6 | PGroupContextExtensions _ => 7
  end.

(** proposal.go:83-103 proposal.marshal *)
Definition putProposal (p : proposal) : W :=
  addUint16 (proposal_type p) +++
  match p with
  | PAdd k => putKeyPackage k
  | PUpdate l => putLeafNode l
  | PRemove i => addUint32 i
  | PPsk id => putPskID id
  | PReInit r => putReInit r
  | PExternalInit k => writeOpaqueVec k
  | PGroupContextExtensions e => putExtensionVec e
  end.

(** proposal.go:261-280, 282-292 proposalOrRef *)
Definition getProposalOrRef : reader proposalOrRef :=
  t <- getTag 1 [1; 2] ;;
  if t =? 1 then p <- getProposal ;; rd_ret (PorProposal p)
  else if t =? 2 then r <- readOpaqueVec ;; rd_ret (PorReference r)
  else rd_panic "unreachable".
Definition putProposalOrRef (p : proposalOrRef) : W :=
  match p with
  | PorProposal q => addUint8 1 +++ putProposal q
  | PorReference r => addUint8 2 +++ writeOpaqueVec r
  end.

(** ** group.go *)

(** group.go:856-882 commit.unmarshal, 884-892 marshal *)
Definition getCommit : reader commit :=
  ps <- readVector getProposalOrRef ;;
  has <- readOptional ;;
  path <- (if has then u <- getUpdatePath ;; rd_ret (Some u) else rd_ret None) ;;
  rd_ret (mkCommit ps path).
Definition putCommit (c : commit) : W :=
  writeVector putProposalOrRef (c_proposals c) +++
  match c_path c with
  | Some u => writeOptional true +++ putUpdatePath u
  | None => writeOptional false
  end.

(** group.go:915-917: a failed read of one of the three last fields is not
    reported; that field and the following ones keep their zero values and the
    input keeps what the failed read has consumed. *)
Definition getGroupInfoTail : reader (bytes * N * bytes) := fun s =>
  match readOpaqueVec s with
  | (Ok tag, s1) =>
    match readUint32 s1 with
    | (Ok signer, s2) =>
      match readOpaqueVec s2 with
      | (Ok sig, s3) => (Ok (tag, signer, sig), s3)
      | (Err _, s3) => (Ok (tag, signer, []), s3)
      | (Panic p, s3) => (Panic p, s3)
      | (Hang, s3) => (Hang, s3)
      end
    | (Err _, s2) => (Ok (tag, 0, []), s2)
    | (Panic p, s2) => (Panic p, s2)
    | (Hang, s2) => (Hang, s2)
    end
  | (Err _, s1) => (Ok ([], 0, []), s1)
  | (Panic p, s1) => (Panic p, s1)
  | (Hang, s1) => (Hang, s1)
  end.

(** group.go:902-920 groupInfo.unmarshal *)
Definition getGroupInfo : reader groupInfo :=
  c <- getGroupContext ;;
  exts <- getExtensionVec ;;
  t <- getGroupInfoTail ;;
  rd_ret (mkGroupInfo c exts (fst (fst t)) (snd (fst t)) (snd t)).

(** group.go:996-1001 groupInfoTBS.marshal *)
Definition putGroupInfoTBS (g : groupInfo) : W :=
  putGroupContext (gi_groupContext g) +++ putExtensionVec (gi_extensions g) +++
  writeOpaqueVec (gi_confirmationTag g) +++ addUint32 (gi_signer g).

(** group.go:922-925 groupInfo.marshal *)
Definition putGroupInfo (g : groupInfo) : W :=
  putGroupInfoTBS g +++ writeOpaqueVec (gi_signature g).

(** group.go:1009-1031 groupSecrets.unmarshal, 1033-1044 marshal *)
Definition getGroupSecrets : reader groupSecrets :=
  j <- readOpaqueVec ;;
  has <- readOptional ;;
  path <- (if has then p <- readOpaqueVec ;; rd_ret (Some p) else rd_ret None) ;;
  psks <- readVector getPskID ;;
  rd_ret (mkGroupSecrets j path psks).
Definition putGroupSecrets (g : groupSecrets) : W :=
  writeOpaqueVec (gs_joinerSecret g) +++
  match gs_pathSecret g with
  | Some p => writeOptional true +++ writeOpaqueVec p
  | None => writeOptional false
  end +++
  writeVector putPskID (gs_psks g).

(** group.go:1225-1234, 1236-1239 encryptedGroupSecrets *)
Definition getEncryptedGroupSecrets : reader encryptedGroupSecrets :=
  m <- readOpaqueVec ;; h <- getHpkeCiphertext ;; rd_ret (mkEncryptedGroupSecrets m h).
Definition putEncryptedGroupSecrets (e : encryptedGroupSecrets) : W :=
  writeOpaqueVec (egs_newMember e) +++ putHpkeCiphertext (egs_secrets e).

(** group.go:1112-1136, 1138-1144 Welcome *)
Definition getWelcome : reader welcome :=
  cs <- readUint16 ;;
  secs <- readVector getEncryptedGroupSecrets ;;
  info <- readOpaqueVec ;;
  rd_ret (mkWelcome cs secs info).
Definition putWelcome (w : welcome) : W :=
  addUint16 (w_cipherSuite w) +++ writeVector putEncryptedGroupSecrets (w_secrets w) +++
  writeOpaqueVec (w_encryptedGroupInfo w).

(** ** framing.go *)

(** framing.go:73-89, 91-99 sender *)
Definition getSender : reader sender :=
  t <- getTag 1 [1; 2; 3; 4] ;;
  if t =? 1 then i <- readUint32 ;; rd_ret (SMember i)
  else if t =? 2 then i <- readUint32 ;; rd_ret (SExternal i)
  else if t =? 3 then rd_ret SNewMemberProposal
  else rd_ret SNewMemberCommit.
Definition putSender (s : sender) : W :=
  match s with
  | SMember i => addUint8 1 +++ addUint32 i
  | SExternal i => addUint8 2 +++ addUint32 i
  | SNewMemberProposal => addUint8 3
  | SNewMemberCommit => addUint8 4
  end.

(** framing.go:164-178 and 714-727: the content for a given content type *)
Definition getBody (ct : N) : reader body :=
  if ct =? 1 then d <- readOpaqueVec ;; rd_ret (BApplication d)
  else if ct =? 2 then p <- getProposal ;; rd_ret (BProposal p)
  else if ct =? 3 then c <- getCommit ;; rd_ret (BCommit c)
  else rd_panic "unreachable".
Definition putBody (b : body) : W :=
  match b with
  | BApplication d => writeOpaqueVec d
  | BProposal p => putProposal p
  | BCommit c => putCommit c
  end.

(** framing.go:26-36 contentType.unmarshal *)
Definition getContentType : reader N := getTag 1 [1; 2; 3].

(** framing.go:148-179 framedContent.unmarshal, 181-197 marshal *)
Definition getFramedContent : reader framedContent :=
  g <- readOpaqueVec ;;
  e <- readUint64 ;;
  s <- getSender ;;
  ad <- readOpaqueVec ;;
  ct <- getContentType ;;
  b <- getBody ct ;;
  rd_ret (mkFramedContent g e s ad b).
Definition putFramedContent (c : framedContent) : W :=
  writeOpaqueVec (fc_groupID c) +++ addUint64 (fc_epoch c) +++ putSender (fc_sender c) +++
  writeOpaqueVec (fc_authenticatedData c) +++ addUint8 (body_type (fc_body c)) +++ putBody (fc_body c).

(** framing.go:348-362, 364-370 framedContentAuthData *)
Definition getAuthData (ct : N) : reader authData :=
  sig <- readOpaqueVec ;;
  tag <- (if ct =? 3 then readOpaqueVec else rd_ret []) ;;
  rd_ret (mkAuthData sig tag).
Definition putAuthData (ct : N) (a : authData) : W :=
  writeOpaqueVec (ad_signature a) +++
  (if ct =? 3 then writeOpaqueVec (ad_confirmationTag a) else Ok []).

(** framing.go:283-294, 296-300 authenticatedContent *)
Definition getAuthenticatedContent : reader authenticatedContent :=
  wf <- getTag 2 [1; 2; 3; 4; 5] ;;
  c <- getFramedContent ;;
  a <- getAuthData (body_type (fc_body c)) ;;
  rd_ret (mkAuthenticatedContent wf c a).
Definition putAuthenticatedContent (a : authenticatedContent) : W :=
  addUint16 (ac_wireFormat a) +++ putFramedContent (ac_content a) +++
  putAuthData (body_type (fc_body (ac_content a))) (ac_auth a).

(** framing.go:402-410 framedContentTBS.marshal; the version is always 1
    (framing.go:312) and the context is never nil. *)
Definition putFramedContentTBS (wf : N) (c : framedContent) (ctx : groupContext) : W :=
  addUint16 1 +++ addUint16 wf +++ putFramedContent c +++
  match fc_sender c with
  | SMember _ | SNewMemberCommit => putGroupContext ctx
  | _ => Ok []
  end.

(** framing.go:500-503 authenticatedContentTBM.marshal *)
Definition putAuthenticatedContentTBM (wf : N) (c : framedContent) (ctx : groupContext) (a : authData) : W :=
  putFramedContentTBS wf c ctx +++ putAuthData (body_type (fc_body c)) a.

(** key_schedule.go:139-147 confirmedTranscriptHashInput.marshal *)
Definition putConfirmedTranscriptHashInput (wf : N) (c : framedContent) (sig : bytes) : W :=
  match fc_body c with
  | BCommit _ => addUint16 wf +++ putFramedContent c +++ writeOpaqueVec sig
  | _ => Err "mls: confirmedTranscriptHashInput can only contain contentTypeCommit"
  end.

(** framing.go:429-446, 448-455 publicMessage *)
Definition getPublicMessage : reader publicMessage :=
  c <- getFramedContent ;;
  a <- getAuthData (body_type (fc_body c)) ;;
  t <- (match fc_sender c with SMember _ => readOpaqueVec | _ => rd_ret [] end) ;;
  rd_ret (mkPublicMessage c a t).
Definition putPublicMessage (m : publicMessage) : W :=
  putFramedContent (pubm_content m) +++
  putAuthData (body_type (fc_body (pubm_content m))) (pubm_auth m) +++
  match fc_sender (pubm_content m) with SMember _ => writeOpaqueVec (pubm_membershipTag m) | _ => Ok [] end.

(** framing.go:533-550, 552-559 privateMessage *)
Definition getPrivateMessage : reader privateMessage :=
  g <- readOpaqueVec ;;
  e <- readUint64 ;;
  ct <- getContentType ;;
  ad <- readOpaqueVec ;;
  esd <- readOpaqueVec ;;
  c <- readOpaqueVec ;;
  rd_ret (mkPrivateMessage g e ct ad esd c).
Definition putPrivateMessage (m : privateMessage) : W :=
  writeOpaqueVec (privm_groupID m) +++ addUint64 (privm_epoch m) +++ addUint8 (privm_contentType m) +++
  writeOpaqueVec (privm_authenticatedData m) +++ writeOpaqueVec (privm_encryptedSenderData m) +++
  writeOpaqueVec (privm_ciphertext m).

(** framing.go:710-733, 735-747 privateMessageContent *)
Definition getPrivateMessageContent (ct : N) : reader privateMessageContent :=
  b <- getBody ct ;; a <- getAuthData ct ;; rd_ret (mkPrivateMessageContent b a).
Definition putPrivateMessageContent (c : privateMessageContent) : W :=
  putBody (pmc_body c) +++ putAuthData (body_type (pmc_body c)) (pmc_auth c).

(** framing.go:682-686 senderDataAAD.marshal *)
Definition putSenderDataAAD (groupID : bytes) (epoch ct : N) : W :=
  writeOpaqueVec groupID +++ addUint64 epoch +++ addUint8 ct.

(** framing.go:695-700 privateContentAAD.marshal *)
Definition putPrivateContentAAD (groupID : bytes) (epoch ct : N) (ad : bytes) : W :=
  writeOpaqueVec groupID +++ addUint64 epoch +++ addUint8 ct +++ writeOpaqueVec ad.

(** framing.go:855-860, 862-866 senderData *)
Definition getSenderData : reader senderData :=
  li <- readUint32 ;; g <- readUint32 ;; r <- readN 4 ;; rd_ret (mkSenderData li g r).
Definition putSenderData (d : senderData) : W :=
  addUint32 (sd_leafIndex d) +++ addUint32 (sd_generation d) +++ addBytes (sd_reuseGuard d).

(** framing.go:209-242 mlsMessage.unmarshal, 244-261 marshal *)
Definition getMlsMessage : reader mlsMessage :=
  v <- readUint16 ;;
  if negb (v =? 1) then rd_err "mls: invalid protocol version" else
  wf <- getTag 2 [1; 2; 3; 4; 5] ;;
  if wf =? 1 then m <- getPublicMessage ;; rd_ret (MPublic m)
  else if wf =? 2 then m <- getPrivateMessage ;; rd_ret (MPrivate m)
  else if wf =? 3 then m <- getWelcome ;; rd_ret (MWelcome m)
  else if wf =? 4 then m <- getGroupInfo ;; rd_ret (MGroupInfo m)
  else if wf =? 5 then m <- getKeyPackage ;; rd_ret (MKeyPackage m)
  else rd_panic "unreachable".
Definition putMlsMessage (m : mlsMessage) : W :=
  addUint16 1 +++ addUint16 (msg_wireFormat m) +++
  match m with
  | MPublic x => putPublicMessage x
  | MPrivate x => putPrivateMessage x
  | MWelcome x => putWelcome x
  | MGroupInfo x => putGroupInfo x
  | MKeyPackage x => putKeyPackage x
  end.

(** ** Exported entry points of the codec *)

(** key_package.go:26-34 UnmarshalKeyPackage *)
Definition unmarshalKeyPackage (raw : bytes) : res keyPackage :=
  let! msg := unmarshal getMlsMessage raw in
  match msg with
  | MKeyPackage k => Ok k
  | _ => Err "mls: expected a key package message"
  end.

(** key_package.go:37-48 KeyPackage.Bytes: an encoding error panics. *)
Definition keyPackageBytes (k : keyPackage) : res bytes :=
  match putMlsMessage (MKeyPackage k) with
  | Err e => Panic "mls: failed to marshal key package message"
  | r => r
  end.

(** group.go:1088-1096 UnmarshalWelcome *)
Definition unmarshalWelcome (raw : bytes) : res welcome :=
  let! msg := unmarshal getMlsMessage raw in
  match msg with
  | MWelcome w => Ok w
  | _ => Err "mls: expected a welcome message"
  end.

(** group.go:1099-1110 Welcome.Bytes *)
Definition welcomeBytes (w : welcome) : res bytes :=
  match putMlsMessage (MWelcome w) with
  | Err e => Panic "mls: failed to marshal welcome message"
  | r => r
  end.
