(** The cryptographic operations that processing a message takes
    (group.go:256-558, tree.go:1140-1303, secret_tree.go:29-65).

    The functions of Group.v and Tree.v once more, with a count: one for every
    hash, MAC, step of key derivation (extract or expand), derived key pair,
    signature verification and decryption.  MessageWorkFacts.v shows that apart
    from the count these are the functions of Group.v. *)
From Verif Require Export HashWork Work.

Section WithCrypto.
Context {C : crypto}.

(** tree.go:1179-1200, the parent hashes of mergeUpdatePath *)
Fixpoint countMergeParentHashes (cs : N) (sender : N) (directPath : list N) (t : ratchetTree) (prev : bytes) (fdp : list N)
  : counted (ratchetTree * bytes) :=
  match fdp with
  | [] => costs 0 (Ok (t, prev))
  | ni :: r =>
    let# o := costs 0 (getN t ni) in
    match o with
    | Some (NParent p) =>
      match children ni with
      | None => costs 0 (Panic "unreachable")
      | Some (lc, rc) =>
        let s := if (lc =? sender) || memN lc directPath then rc else lc in
        let# treeHash := countTreeHash cs t s [] in
        let p' := mkParentNode (pn_encryptionKey p) prev (pn_unmergedLeaves p) in
        let# t' := costs 0 (setN t ni (Some (NParent p'))) in
        let# h := costs 1 (computeParentHash cs p' treeHash) in
        countMergeParentHashes cs sender directPath t' h r
      end
    | _ => costs 0 (Panic "nil pointer dereference")
    end
  end.

(** tree.go:1140-1209 mergeUpdatePath *)
Definition countMergeUpdatePath (cs : N) (t : ratchetTree) (senderLeafIndex : N) (path : updatePath) : counted ratchetTree :=
  let sender := nodeIndexOf senderLeafIndex in
  let# dp := costs 0 (directPath (numLeaves t) sender) in
  let# t1 := costs 0 (foldM (fun t ni => setN t ni None) t dp) in
  let# fdp := costs 0 (filteredDirectPath t1 sender) in
  let# _ := costs 0 (guard (lenN fdp =? lenN (up_nodes path)) "mls: UpdatePath and filtered direct path have different lengths") in
  let# t2 := costs 0 (foldM (fun t p => setN t (fst p) (Some (NParent (mkParentNode (upn_encryptionKey (snd p)) [] []))))
                   t1 (combine fdp (up_nodes path))) in
  let# (t3, prev) := countMergeParentHashes cs sender dp t2 [] (rev fdp) in
  let# _ := costs 0 (guard (bytes_eqb (ln_parentHash (up_leafNode path)) prev) "mls: parent hash mismatch for update path's leaf node") in
  costs 0 (setN t3 sender (Some (NLeaf (up_leafNode path)))).
Definition countMergeUpdatePathH (cs : N) (h : heap) (t : ptree) (senderLeafIndex : N) (path : updatePath) : counted (heap * ptree) :=
  let# v := countMergeUpdatePath cs (deref h t) senderLeafIndex path in
  let# dp := costs 0 (directPath (numLeaves t) (nodeIndexOf senderLeafIndex)) in
  costs 0 (foldM (writeBack v) (h, t) (nodeIndexOf senderLeafIndex :: dp)).

(** tree.go:497-513 nodePrivFromPathSecret *)
Definition countNodePriv (cs : N) (pathSecret nodePub : bytes) : counted bytes :=
  let# nodeSecret := costs 1 (deriveSecret cs pathSecret (str "node")) in
  let# (pub, priv) := costs 1 (deriveEncryptionKeyPair cs nodeSecret) in
  costs 0 (if bytes_eqb pub nodePub then Ok priv else Err "mls: node public key mismatch").

(** tree.go:1286-1296 *)
Fixpoint countDerivePath (cs : N) (t : ratchetTree) (priv : privTree) (pathSecret : bytes) (path : list N)
  : counted (privTree * bytes) :=
  match path with
  | [] => costs 0 (Ok (priv, pathSecret))
  | ni :: r =>
    let# pathSecret' := costs 1 (deriveSecret cs pathSecret (str "path")) in
    let# o := costs 0 (getN t ni) in
    match o with
    | None => costs 0 (Panic "nil pointer dereference")
    | Some n =>
      let# nodePriv := countNodePriv cs pathSecret' (node_encryptionKey n) in
      let# priv' := costs 0 (setN priv ni (Some nodePriv)) in
      countDerivePath cs t priv' pathSecret' r
    end
  end.

(** tree.go:1211-1303 decryptPathSecrets *)
Definition countDecryptPathSecrets (cs : N) (t : ratchetTree) (groupCtx : groupContext)
    (senderLeafIndex recipientLeafIndex : N) (path : updatePath) (priv : privTree) : counted (bytes * privTree) :=
  let sender := nodeIndexOf senderLeafIndex in
  let recipient := nodeIndexOf recipientLeafIndex in
  let# fdp := costs 0 (filteredDirectPath t sender) in
  let# _ := costs 0 (guard (lenN (up_nodes path) =? lenN fdp) "mls: invalid UpdatePath length") in
  let ancestor := commonAncestor sender recipient in
  match position ancestor fdp with
  | None => costs 0 (Err "mls: cannot find recipient ancestor")
  | Some i =>
    let# upn := costs 0 (index (up_nodes path) i) in
    match (if recipient <? sender then left ancestor else right ancestor) with
    | None => costs 0 (Panic "unreachable")
    | Some copathNode =>
      let# copathResolution := costs 0 (resolve t copathNode) in
      let# _ := costs 0 (guard (lenN (upn_encryptedPathSecret upn) =? lenN copathResolution) "mls: invalid UpdatePathNode.encrypted_path_secret length") in
      let# found := costs 0 (findPriv priv O copathResolution) in
      match found with
      | None => costs 0 (Err "mls: no private key found")
      | Some (resolutionIndex, nodePriv) =>
        let# ciphertext := costs 0 (index (upn_encryptedPathSecret upn) resolutionIndex) in
        let# pathSecret := costs 1 (decryptPathSecret cs nodePriv groupCtx ciphertext) in
        let# o := costs 0 (getN t ancestor) in
        match o with
        | None => costs 0 (Panic "nil pointer dereference")
        | Some n =>
          let# nodePriv' := countNodePriv cs pathSecret (node_encryptionKey n) in
          let# priv1 := costs 0 (setN priv ancestor (Some nodePriv')) in
          let# (priv2, pathSecret') := countDerivePath cs t priv1 pathSecret (skipn (S i) fdp) in
          let# commitSecret := costs 1 (deriveSecret cs pathSecret' (str "path")) in
          costs 0 (Ok (commitSecret, priv2))
        end
      end
    end
  end.

(** group.go:461-505 *)
Definition countPath (g : group) (senderLeafIndex : N) (path : updatePath) (h : heap) (t : ptree) (priv : privTree) (now : gotime)
  : counted (heap * ptree * bytes * bytes * privTree) :=
  let cs := gc_cipherSuite (gr_context g) in
  let# _ := costs 0 (guard (ln_source (up_leafNode path) =? leafNodeSourceCommit) "mls: commit path leaf node source must be commit") in
  let v := deref h t in
  let# senderNode := costs 0 (getLeaf v senderLeafIndex) in
  let# (sigKeys, encKeys) := costs 0 (treeKeys v) in
  match senderNode with
  | None => costs 0 (Panic "nil pointer dereference")
  | Some sn =>
    let# creds := costs 0 (supportedCreds v) in
    let# _ := costs 1 (leafNodeVerify (up_leafNode path)
                (mkVerifyOptions cs (gc_groupID (gr_context g)) senderLeafIndex creds
                   (filter (fun k => negb (bytes_eqb k (ln_signatureKey sn))) sigKeys) encKeys now)) in
    let# _ := costs 0 (guard (forallb (fun n => negb (memB (upn_encryptionKey n) encKeys)) (up_nodes path))
                    "mls: encryption key in update path already used in ratchet tree") in
    let# (h1, t1) := countMergeUpdatePathH cs h t senderLeafIndex path in
    let v1 := deref h1 t1 in
    let# treeHash := countRootTreeHash cs v1 in
    let ctx := nextContext (gr_context g) treeHash (gc_confirmedTranscriptHash (gr_context g)) in
    let# (commitSecret, priv') := countDecryptPathSecrets cs v1 ctx senderLeafIndex (gr_myLeafIndex g) path priv in
    costs 0 (Ok (h1, t1, treeHash, commitSecret, priv'))
  end.

(** group.go:507-545; the joiner and epoch secrets are extracted and then
    expanded, and so is what every PSK brings, which is extracted once more. *)
Definition countEpoch (g : group) (ac : authenticatedContent) (treeHash commitSecret : bytes)
    (pskIDs : list preSharedKeyID) (psks : list bytes) : counted (groupContext * bytes * bytes * bytes * bytes) :=
  let cs := gc_cipherSuite (gr_context g) in
  let# confirmed := costs 1 (confirmedTranscriptHash cs (ac_wireFormat ac) (ac_content ac) (ad_signature (ac_auth ac)) (gr_interimTranscriptHash g)) in
  let ctx := nextContext (gr_context g) treeHash confirmed in
  let# interim := costs 1 (nextInterimTranscriptHash cs confirmed (ad_confirmationTag (ac_auth ac))) in
  let# joiner := costs 2 (extractJoinerSecret ctx (gr_initSecret g) commitSecret) in
  let# pskSecret := costs (3 * lenN pskIDs) (extractPSKSecret cs pskIDs psks) in
  let# epochSecret := costs 2 (extractEpochSecret ctx joiner pskSecret) in
  let# initSecret := costs 1 (deriveSecret cs epochSecret secretLabelInit) in
  costs 0 (Ok (ctx, interim, pskSecret, epochSecret, initSecret)).

(** group.go:452-556 *)
Definition countFinish (g : group) (ac : authenticatedContent) (c : commit) (h : heap) (t : ptree)
    (pskIDs : list preSharedKeyID) (psks : list bytes) (now : gotime) : counted group :=
  let cs := gc_cipherSuite (gr_context g) in
  let# priv := costs 0 (carryPriv (length (gr_tree g)) (length t) (gr_privTree g)) in
  let# nh := costs 0 (extractSize cs) in
  let# (h1, t1, treeHash, commitSecret, priv1) :=
    match c_path c with
    | Some path => countPath g (sender_leafIndex (fc_sender (ac_content ac))) path h t priv now
    | None => let# treeHash := countRootTreeHash cs (deref h t) in costs 0 (Ok (h, t, treeHash, zeros nh, priv))
    end in
  let# (ctx, interim, pskSecret, epochSecret, initSecret) := countEpoch g ac treeHash commitSecret pskIDs psks in
  costs 0 (Ok (mkGroup h1 t1 ctx interim pskSecret epochSecret initSecret (gr_myLeafIndex g) priv1 (gr_signaturePriv g) [])).

(** group.go:433-439: one signature for every key package *)
Fixpoint countAdds (ctx : groupContext) (l : list proposal) : counted unit :=
  match l with
  | [] => costs 0 (Ok tt)
  | p :: r => let# _ := match p with PAdd k => costs 1 (keyPackageVerify k ctx) | _ => costs 0 (Ok tt) end in countAdds ctx r
  end.

(** group.go:427-444 *)
Definition countCheck (g : group) (committer : N) (c : commit) : counted (list proposal * list N) :=
  let# ps := costs 0 (resolveProposals (c_proposals c) committer (gr_pending g)) in
  let proposals := map fst ps in
  let senders := map snd ps in
  let# _ := costs 0 (verifyProposalList proposals senders committer) in
  let# _ := countAdds (gr_context g) proposals in
  let# _ := costs 0 (guard (negb (proposalListNeedsPath proposals && match c_path c with None => true | Some _ => false end))
                  "mls: commit is missing update path but required by proposal list") in
  costs 0 (Ok (proposals, senders)).

(** group.go:418-558 processCommit *)
Definition countCommit (g : group) (ac : authenticatedContent) (pskIDs : list preSharedKeyID) (psks : list bytes) (now : gotime)
  : (group * res unit) * N :=
  match fc_body (ac_content ac) with
  | BCommit c =>
    let checked := countCheck g (sender_leafIndex (fc_sender (ac_content ac))) c in
    match fst checked with
    | Err e => ((g, Err e), snd checked)
    | Panic p => ((g, Panic p), snd checked)
    | Hang => ((g, Hang), snd checked)
    | Ok (proposals, senders) =>
      match applyH (gr_heap g) (gr_tree g) proposals senders with
      | Err e => ((g, Err e), snd checked)
      | Panic p => ((g, Panic p), snd checked)
      | Hang => ((g, Hang), snd checked)
      | Ok (h, t) =>
        let finished := countFinish g ac c h t pskIDs psks now in
        (match fst finished with
         | Ok g' => (g', Ok tt)
         | Err e => (withHeap g h, Err e)
         | Panic p => (g, Panic p)
         | Hang => (g, Hang)
         end, snd checked + snd finished)
      end
    end
  | _ => ((g, Panic "mls: expected a commit"), 0)
  end.

(** group.go:292-324 verifyPublicMessage *)
Definition countPublic (g : group) (m : publicMessage) : counted authenticatedContent :=
  let ctx := gr_context g in
  let# _ := costs 0 (guard (bytes_eqb (fc_groupID (pubm_content m)) (gc_groupID ctx)) "mls: message group ID mismatch") in
  let# _ := costs 0 (guard (fc_epoch (pubm_content m) =? gc_epoch ctx) "mls: epoch mismatch") in
  match fc_sender (pubm_content m) with
  | SMember li =>
    let# senderNode := costs 0 (getLeaf (gr_value g) li) in
    match senderNode with
    | None => costs 0 (Err "mls: blank leaf node for sender")
    | Some sn =>
      let ac := pubMsgAuthContent m in
      let# sigok := costs 1 (authContentVerifySignature ac (ln_signatureKey sn) ctx) in
      let# _ := costs 0 (guard sigok "mls: failed to verify public message signature") in
      let# membershipKey := costs 1 (deriveSecret (gc_cipherSuite ctx) (gr_epochSecret g) secretLabelMembership) in
      let# tagok := costs 1 (verifyMembershipTag membershipKey ctx m) in
      let# _ := costs 0 (guard tagok "failed to verify membership tag") in
      costs 0 (Ok ac)
    end
  | _ => costs 0 (Err "mls: unsupported sender type")
  end.

(** secret_tree.go:36-65 deriveChildren *)
Fixpoint countChildren (fuel : nat) (cs : N) (t : secretTree) (x : N) : counted secretTree :=
  match children x with
  | None => costs 0 (Ok t)
  | Some (l, r) =>
    match fuel with
    | O => costs 0 Hang
    | S f =>
      let# parentSecret := costs 0 (getSecret t x) in
      let# nh := costs 0 (extractSize cs) in
      let# leftSecret := costs 1 (expandWithLabel cs parentSecret (str "tree") (str "left") nh) in
      let# rightSecret := costs 1 (expandWithLabel cs parentSecret (str "tree") (str "right") nh) in
      let# t1 := costs 0 (setN t l (Some leftSecret)) in
      let# t2 := costs 0 (setN t1 r (Some rightSecret)) in
      let# t3 := countChildren f cs t2 l in
      countChildren f cs t3 r
    end
  end.

(** secret_tree.go:29-34 deriveSecretTree *)
Definition countSecretTree (cs : N) (n : N) (encryptionSecret : bytes) : counted secretTree :=
  let# t := costs 0 (setN (repeat None (N.to_nat (width n))) (root n) (Some encryptionSecret)) in
  countChildren 32 cs t (root n).

(** group.go:362-369 *)
Fixpoint countForward (cs : N) (s : ratchetSecret) (steps : nat) : counted ratchetSecret :=
  match steps with
  | O => costs 0 (Ok s)
  | S k => let# s' := costs 1 (deriveNext cs s) in countForward cs s' k
  end.

(** group.go:339-369 *)
Definition countSecret (g : group) (li ct generation : N) : counted ratchetSecret :=
  let cs := gc_cipherSuite (gr_context g) in
  let# encryptionSecret := costs 1 (deriveSecret cs (gr_epochSecret g) secretLabelEncryption) in
  let# st := countSecretTree cs (numLeaves (gr_tree g)) encryptionSecret in
  let# label := costs 0 (ratchetLabelFromContentType ct) in
  let# secret := costs 1 (deriveRatchetRoot cs st (nodeIndexOf li) label) in
  countForward cs secret (N.to_nat generation).

(** group.go:326-384; the sender data and the content each take a key, a nonce
    and a decryption. *)
Definition countPrivate (g : group) (m : privateMessage) : counted authenticatedContent :=
  let ctx := gr_context g in
  let cs := gc_cipherSuite ctx in
  let# _ := costs 0 (guard (bytes_eqb (privm_groupID m) (gc_groupID ctx)) "mls: message group ID mismatch") in
  let# _ := costs 0 (guard (privm_epoch m =? gc_epoch ctx) "mls: epoch mismatch") in
  let# senderDataSecret := costs 1 (deriveSecret cs (gr_epochSecret g) secretLabelSenderData) in
  let# sd := costs 3 (decryptSenderData cs m senderDataSecret) in
  let# secret := countSecret g (sd_leafIndex sd) (privm_contentType m) (sd_generation sd) in
  let# pc := costs 3 (decryptContent cs m secret (sd_reuseGuard sd)) in
  let# signerNode := costs 0 (getLeaf (gr_value g) (sd_leafIndex sd)) in
  match signerNode with
  | None => costs 0 (Err "mls: signer node is blank")
  | Some sn =>
    let ac := privMsgAuthContent m sd pc in
    let# sigok := costs 1 (authContentVerifySignature ac (ln_signatureKey sn) ctx) in
    let# _ := costs 0 (guard sigok "failed to verify private message content signature") in
    costs 0 (Ok ac)
  end.

Definition noDataCounted (r : (group * res unit) * N) : (group * res (option bytes)) * N := (noData (fst r), snd r).

(** group.go:399-416 processProposal: the reference is a hash. *)
Definition countProposal (g : group) (ac : authenticatedContent) : (group * res unit) * N := (processProposal g ac, 1).

(** group.go:256-397 *)
Definition countMessage (g : group) (raw : bytes) (now : gotime) : (group * res (option bytes)) * N :=
  match unmarshal getMlsMessage raw with
  | Ok (MPublic m) =>
    let opened := countPublic g m in
    match fst opened with
    | Ok ac =>
      let done :=
        match fc_body (ac_content ac) with
        | BProposal _ => countProposal g ac
        | BCommit _ => countCommit g ac [] [] now
        | BApplication _ => ((g, Err "mls: application content type must be encrypted"), 0)
        end in
      (noData (fst done), snd opened + snd done)
    | Err e => ((g, Err e), snd opened)
    | Panic p => ((g, Panic p), snd opened)
    | Hang => ((g, Hang), snd opened)
    end
  | Ok (MPrivate m) =>
    let opened := countPrivate g m in
    match fst opened with
    | Ok ac =>
      let done :=
        match fc_body (ac_content ac) with
        | BProposal _ => noDataCounted (countProposal g ac)
        | BCommit _ => noDataCounted (countCommit g ac [] [] now)
        | BApplication data => ((g, Ok (Some data)), 0)
        end in
      (fst done, snd opened + snd done)
    | Err e => ((g, Err e), snd opened)
    | Panic p => ((g, Panic p), snd opened)
    | Hang => ((g, Hang), snd opened)
    end
  | Ok _ => ((g, Err "mls: unsupported wire format"), 0)
  | Err e => ((g, Err e), 0)
  | Panic p => ((g, Panic p), 0)
  | Hang => ((g, Hang), 0)
  end.
End WithCrypto.
