(** Groups (group.go).

    A method that modifies its group returns the new group together with its
    result, so that what a failed call leaves behind is visible.  After a panic
    the group is of no interest.  All the trees of one group share one heap;
    different groups never share nodes. *)
From Verif Require Export Framing.

(** group.go:19-33 Group; the tree is [gr_tree], a list of pointers into
    [gr_heap]. *)
Record group := mkGroup {
  gr_heap : heap;
  gr_tree : ptree;
  gr_context : groupContext;
  gr_interimTranscriptHash : bytes;
  gr_pskSecret : bytes;
  gr_epochSecret : bytes;
  gr_initSecret : bytes;
  gr_myLeafIndex : N;
  gr_privTree : privTree;
  gr_signaturePriv : bytes;
  gr_pending : list pendingProposal }.

(** The ratchet tree of a group, as a value *)
Definition gr_value (g : group) : ratchetTree := deref (gr_heap g) (gr_tree g).

Definition withHeap (g : group) (h : heap) : group :=
  mkGroup h (gr_tree g) (gr_context g) (gr_interimTranscriptHash g) (gr_pskSecret g) (gr_epochSecret g) (gr_initSecret g)
    (gr_myLeafIndex g) (gr_privTree g) (gr_signaturePriv g) (gr_pending g).
Definition withPending (g : group) (p : list pendingProposal) : group :=
  mkGroup (gr_heap g) (gr_tree g) (gr_context g) (gr_interimTranscriptHash g) (gr_pskSecret g) (gr_epochSecret g) (gr_initSecret g)
    (gr_myLeafIndex g) (gr_privTree g) (gr_signaturePriv g) p.

(** A tree read from the wire: every node is fresh. *)
Fixpoint loadFrom (p : nat) (t : ratchetTree) : heap * ptree :=
  match t with
  | [] => ([], [])
  | None :: r => let '(h, t') := loadFrom p r in (h, None :: t')
  | Some n :: r => let '(h, t') := loadFrom (S p) r in (n :: h, Some p :: t')
  end.
Definition load (t : ratchetTree) : heap * ptree := loadFrom 0 t.

(** groupContext with the next epoch, the given tree hash and transcript hash
    (group.go:446-447, 614-615); the epoch is a uint64. *)
Definition nextContext (c : groupContext) (treeHash confirmed : bytes) : groupContext :=
  mkGroupContext (gc_version c) (gc_cipherSuite c) (gc_groupID c) ((gc_epoch c + 1) mod 2 ^ 64) treeHash confirmed (gc_extensions c).

(** group.go:1047-1060 verifySingleReinitOrBranchPSK *)
Definition verifySingleReinitOrBranchPSK (s : groupSecrets) : bool :=
  lenN (filter (fun id => match id with
                          | PskResumption usage _ _ _ => (usage =? 2) || (usage =? 3)
                          | PskExternal _ _ => false
                          end) (gs_psks s)) <=? 1.

(** group.go:1146-1154 Welcome.NewMembers *)
Definition welcomeNewMembers (w : welcome) : list bytes := map egs_newMember (w_secrets w).

(** group.go:1156-1163 findSecret *)
Definition findSecret (w : welcome) (ref : bytes) : option encryptedGroupSecrets :=
  find (fun s => bytes_eqb (egs_newMember s) ref) (w_secrets w).

Section WithCrypto.
Context {C : crypto}.

(** ** Group information and secrets *)

(** group.go:927-934 groupInfo.verifySignature *)
Definition groupInfoVerifySignature (g : groupInfo) (signerPub : bytes) : res bool :=
  falseOnPutErr (putGroupInfoTBS g) (fun tbs =>
    verifyWithLabel (gc_cipherSuite (gi_groupContext g)) signerPub (str "GroupInfoTBS") tbs (gi_signature g)).

(** group.go:936-948 groupInfo.sign *)
Definition groupInfoSign (signerPriv rnd : bytes) (g : groupInfo) : res groupInfo :=
  let! tbs := putGroupInfoTBS g in
  let! sig := signWithLabel (gc_cipherSuite (gi_groupContext g)) signerPriv rnd (str "GroupInfoTBS") tbs in
  Ok (mkGroupInfo (gi_groupContext g) (gi_extensions g) (gi_confirmationTag g) (gi_signer g) sig).

(** group.go:950-961 groupInfo.verifyConfirmationTag *)
Definition groupInfoVerifyConfirmationTag (g : groupInfo) (joinerSecret pskSecret : bytes) : res bool :=
  let cs := gc_cipherSuite (gi_groupContext g) in
  falseOnErr (
    let! epochSecret := extractEpochSecret (gi_groupContext g) joinerSecret pskSecret in
    let! confirmationKey := deriveSecret cs epochSecret secretLabelConfirm in
    verifyMAC cs confirmationKey (gc_confirmedTranscriptHash (gi_groupContext g)) (gi_confirmationTag g)).

(** group.go:967-985, 1189-1207: the key and nonce of the group information *)
Definition welcomeKeyNonce (cs : N) (joinerSecret pskSecret : bytes) : res (bytes * bytes) :=
  let! welcomeSecret := extractWelcomeSecret cs joinerSecret pskSecret in
  let! nn := suiteNonceSize cs in
  let! nonce := expandWithLabel cs welcomeSecret (str "nonce") [] nn in
  let! nk := suiteKeySize cs in
  let! key := expandWithLabel cs welcomeSecret (str "key") [] nk in
  Ok (key, nonce).

(** group.go:963-992 groupInfo.encrypt *)
Definition groupInfoEncrypt (g : groupInfo) (joinerSecret pskSecret : bytes) : res bytes :=
  let cs := gc_cipherSuite (gi_groupContext g) in
  let! (key, nonce) := welcomeKeyNonce cs joinerSecret pskSecret in
  let! raw := putGroupInfo g in
  aeadSeal cs key nonce [] raw.

(** group.go:1062-1077 groupSecrets.encrypt *)
Definition groupSecretsEncrypt (cs : N) (s : groupSecrets) (initKey encryptedGroupInfo rnd : bytes) : res hpkeCiphertext :=
  let! raw := putGroupSecrets s in
  let! (ko, ct) := encryptWithLabel cs initKey (str "Welcome") encryptedGroupInfo raw rnd in
  Ok (mkHpkeCiphertext ko ct).

(** group.go:1165-1183 decryptGroupSecrets *)
Definition decryptGroupSecrets (w : welcome) (ref initKeyPriv : bytes) : res groupSecrets :=
  match findSecret w ref with
  | None => Err "mls: encrypted group secrets not found for provided key package ref"
  | Some sec =>
    let! raw := decryptWithLabel (w_cipherSuite w) initKeyPriv (str "Welcome") (w_encryptedGroupInfo w)
                  (hc_kemOutput (egs_secrets sec)) (hc_ciphertext (egs_secrets sec)) in
    unmarshal getGroupSecrets raw
  end.

(** group.go:1185-1218 decryptGroupInfo *)
Definition decryptGroupInfo (w : welcome) (joinerSecret pskSecret : bytes) : res groupInfo :=
  let cs := w_cipherSuite w in
  let! (key, nonce) := welcomeKeyNonce cs joinerSecret pskSecret in
  let! raw := aeadOpen cs key nonce [] (w_encryptedGroupInfo w) in
  unmarshal getGroupInfo raw.

(** ** Creating a group *)

(** group.go:36-98 CreateGroup; [rnd] is the random epoch secret, of
    [kdf.ExtractSize()] bytes. *)
Definition createGroup (groupID : bytes) (kpp : keyPairPackage) (rnd : bytes) : res group :=
  let kp := kpp_public kpp in
  let cs := kp_cipherSuite kp in
  let! (h, t) := addH [] [None] (kp_leafNode kp) in
  let priv := [Some (kpp_encryptionKey kpp)] in
  let! treeHash := computeRootTreeHash cs (deref h t) in
  let! d := describe cs in
  let confirmed := zeros (hashSize (sd_hash d)) in
  let ctx := mkGroupContext (kp_version kp) cs groupID 0 treeHash confirmed [] in
  let! confirmationTag := signConfirmationTag ctx rnd in
  let! interim := nextInterimTranscriptHash cs confirmed confirmationTag in
  let! pskSecret := extractPSKSecret cs [] [] in
  let! initSecret := deriveSecret cs rnd secretLabelInit in
  Ok (mkGroup h t ctx interim pskSecret rnd initSecret 0 priv (kpp_signatureKey kpp) []).

(** ** Joining a group *)

(** group.go:229-250, the loop of processPathSecret: [pathSecret] is shadowed
    in its body, so every ancestor is given the secret derived from the first
    one. *)
Fixpoint processPathSecretLoop (fuel : nat) (cs : N) (t : ratchetTree) (priv : privTree) (pathSecret : bytes) (x : N)
  : res privTree :=
  match parent (numLeaves t) x with
  | None => Ok priv
  | Some x' =>
    let! pathSecret' := deriveSecret cs pathSecret (str "path") in
    let! o := getN t x' in
    match o with
    | None => Panic "nil pointer dereference"
    | Some n =>
      let! nodePriv := nodePrivFromPathSecret cs pathSecret' (node_encryptionKey n) in
      let! priv' := setN priv x' (Some nodePriv) in
      match fuel with
      | O => Hang
      | S f => processPathSecretLoop f cs t priv' pathSecret x'
      end
    end
  end.

(** group.go:222-253 processPathSecret *)
Definition processPathSecret (cs : N) (t : ratchetTree) (priv : privTree) (pathSecret : bytes) (x : N) : res privTree :=
  let! o := getN t x in
  match o with
  | None => Panic "nil pointer dereference"
  | Some n =>
    let! nodePriv := nodePrivFromPathSecret cs pathSecret (node_encryptionKey n) in
    let! priv' := setN priv x (Some nodePriv) in
    processPathSecretLoop 33 cs t priv' pathSecret x
  end.

(** group.go:129-220 groupFromSecrets; [rawTree], [psks] and [now] are the
    options. *)
Definition groupFromSecrets (w : welcome) (kpp : keyPairPackage) (s : groupSecrets)
    (rawTree : option bytes) (psks : list bytes) (now : gotime) : res group :=
  let! pskSecret := extractPSKSecret (w_cipherSuite w) (gs_psks s) psks in
  let! gi := decryptGroupInfo w (gs_joinerSecret s) pskSecret in
  let rawTree' := match rawTree with Some r => Some r | None => findExtensionData (gi_extensions gi) 2 end in
  match rawTree' with
  | None => Err "mls: missing ratchet tree"
  | Some raw =>
    let! t := unmarshal getRatchetTree raw in
    let! signerNode := getLeaf t (gi_signer gi) in
    match signerNode with
    | None => Err "mls: signer node is blank"
    | Some signer =>
      let! sigok := groupInfoVerifySignature gi (ln_signatureKey signer) in
      let! _ := guard sigok "mls: failed to verify signer node signature" in
      let! tagok := groupInfoVerifyConfirmationTag gi (gs_joinerSecret s) pskSecret in
      let! _ := guard tagok "mls: failed to verify confirmation tag" in
      let ctx := gi_groupContext gi in
      let! _ := guard (gc_cipherSuite ctx =? w_cipherSuite w) "mls: group info cipher suite doesn't match key package" in
      let! _ := verifyIntegrity t ctx now in
      let! epochSecret := extractEpochSecret ctx (gs_joinerSecret s) pskSecret in
      let! initSecret := deriveSecret (gc_cipherSuite ctx) epochSecret secretLabelInit in
      let! interim := nextInterimTranscriptHash (gc_cipherSuite ctx) (gc_confirmedTranscriptHash ctx) (gi_confirmationTag gi) in
      let! mine := findLeaf t (kp_leafNode (kpp_public kpp)) in
      match mine with
      | None => Err "mls: failed to find my leaf node in ratchet tree"
      | Some me =>
        let! priv := setN (repeat None (length t)) (nodeIndexOf me) (Some (kpp_encryptionKey kpp)) in
        let! priv' := match gs_pathSecret s with
                      | None => Ok priv
                      | Some pathSecret =>
                        processPathSecret (gc_cipherSuite ctx) t priv pathSecret
                          (commonAncestor (nodeIndexOf me) (nodeIndexOf (gi_signer gi)))
                      end in
        let '(h, pt) := load t in
        Ok (mkGroup h pt ctx interim pskSecret epochSecret initSecret me priv' (kpp_signatureKey kpp) [])
      end
    end
  end.

(** group.go:101-121 GroupFromWelcome; [now] is the clock. *)
Definition groupFromWelcome (w : welcome) (kpp : keyPairPackage) (now : gotime) : res group :=
  let! ref := keyPackageRef (kpp_public kpp) in
  let! s := decryptGroupSecrets w ref (kpp_initKey kpp) in
  let! _ := guard (verifySingleReinitOrBranchPSK s) "mls: more than one key has usage reinit or branch in group secrets" in
  let! _ := guard (lenN (gs_psks s) =? 0) "mls: group secret PSKs are not yet supported" in
  groupFromSecrets w kpp s None [] now.

(** ** Processing messages *)

(** group.go:399-416 processProposal *)
Definition processProposal (g : group) (ac : authenticatedContent) : group * res unit :=
  match fc_body (ac_content ac) with
  | BProposal p =>
    match generateProposalRef (gc_cipherSuite (gr_context g)) ac with
    | Ok ref => (withPending g (gr_pending g ++ [mkPendingProposal ref p (sender_leafIndex (fc_sender (ac_content ac)))]), Ok tt)
    | Err e => (g, Err e)
    | Panic p => (g, Panic p)
    | Hang => (g, Hang)
    end
  | _ => (g, Panic "mls: expected a proposal")
  end.

(** group.go:427-444: what processCommit does before it applies the
    proposals *)
Definition checkCommit (g : group) (committer : N) (c : commit) : res (list proposal * list N) :=
  let! ps := resolveProposals (c_proposals c) committer (gr_pending g) in
  let proposals := map fst ps in
  let senders := map snd ps in
  let! _ := verifyProposalList proposals senders committer in
  let! _ := foldM (fun _ p => match p with PAdd k => keyPackageVerify k (gr_context g) | _ => Ok tt end) tt proposals in
  let! _ := guard (negb (proposalListNeedsPath proposals && match c_path c with None => true | Some _ => false end))
                  "mls: commit is missing update path but required by proposal list" in
  Ok (proposals, senders).

(** group.go:452-457: the private keys carried over to a tree of [newLen]
    nodes *)
Definition carryPriv (treeLen newLen : nat) (priv : privTree) : res privTree :=
  let n := Nat.min treeLen newLen in
  if (length priv <? n)%nat then Panic "index out of range"
  else Ok (firstn n priv ++ repeat None (newLen - n)).

(** group.go:461-505: the update path of a commit, on the new tree: the new
    heap and tree, the tree hash, the commit secret and the private tree *)
Definition processPath (g : group) (senderLeafIndex : N) (path : updatePath) (h : heap) (t : ptree) (priv : privTree) (now : gotime)
  : res (heap * ptree * bytes * bytes * privTree) :=
  let cs := gc_cipherSuite (gr_context g) in
  let! _ := guard (ln_source (up_leafNode path) =? leafNodeSourceCommit) "mls: commit path leaf node source must be commit" in
  let v := deref h t in
  let! senderNode := getLeaf v senderLeafIndex in
  let! (sigKeys, encKeys) := treeKeys v in
  match senderNode with
  | None => Panic "nil pointer dereference"
  | Some sn =>
    let! creds := supportedCreds v in
    let! _ := leafNodeVerify (up_leafNode path)
                (mkVerifyOptions cs (gc_groupID (gr_context g)) senderLeafIndex creds
                   (filter (fun k => negb (bytes_eqb k (ln_signatureKey sn))) sigKeys) encKeys now) in
    let! _ := guard (forallb (fun n => negb (memB (upn_encryptionKey n) encKeys)) (up_nodes path))
                    "mls: encryption key in update path already used in ratchet tree" in
    let! (h1, t1) := mergeUpdatePathH cs h t senderLeafIndex path in
    let v1 := deref h1 t1 in
    let! treeHash := computeRootTreeHash cs v1 in
    let ctx := nextContext (gr_context g) treeHash (gc_confirmedTranscriptHash (gr_context g)) in
    let! (commitSecret, priv') := decryptPathSecrets cs v1 ctx senderLeafIndex (gr_myLeafIndex g) path priv in
    Ok (h1, t1, treeHash, commitSecret, priv')
  end.

(** group.go:507-545: the new epoch *)
Definition nextEpoch (g : group) (ac : authenticatedContent) (treeHash commitSecret : bytes)
    (pskIDs : list preSharedKeyID) (psks : list bytes) : res (groupContext * bytes * bytes * bytes * bytes) :=
  let cs := gc_cipherSuite (gr_context g) in
  let! confirmed := confirmedTranscriptHash cs (ac_wireFormat ac) (ac_content ac) (ad_signature (ac_auth ac)) (gr_interimTranscriptHash g) in
  let ctx := nextContext (gr_context g) treeHash confirmed in
  let! interim := nextInterimTranscriptHash cs confirmed (ad_confirmationTag (ac_auth ac)) in
  let! joiner := extractJoinerSecret ctx (gr_initSecret g) commitSecret in
  let! pskSecret := extractPSKSecret cs pskIDs psks in
  let! epochSecret := extractEpochSecret ctx joiner pskSecret in
  let! initSecret := deriveSecret cs epochSecret secretLabelInit in
  Ok (ctx, interim, pskSecret, epochSecret, initSecret).

(** group.go:452-556: processCommit once the proposals have been applied to a
    copy of the tree *)
Definition finishCommit (g : group) (ac : authenticatedContent) (c : commit) (h : heap) (t : ptree)
    (pskIDs : list preSharedKeyID) (psks : list bytes) (now : gotime) : res group :=
  let cs := gc_cipherSuite (gr_context g) in
  let! priv := carryPriv (length (gr_tree g)) (length t) (gr_privTree g) in
  let! nh := extractSize cs in
  let! (h1, t1, treeHash, commitSecret, priv1) :=
    match c_path c with
    | Some path => processPath g (sender_leafIndex (fc_sender (ac_content ac))) path h t priv now
    | None => let! treeHash := computeRootTreeHash cs (deref h t) in Ok (h, t, treeHash, zeros nh, priv)
    end in
  let! (ctx, interim, pskSecret, epochSecret, initSecret) := nextEpoch g ac treeHash commitSecret pskIDs psks in
  Ok (mkGroup h1 t1 ctx interim pskSecret epochSecret initSecret (gr_myLeafIndex g) priv1 (gr_signaturePriv g) []).

(** group.go:418-558 processCommit.  The copy of the tree shares its nodes with
    the tree of the group, so what apply does to the heap remains after an
    error. *)
Definition processCommit (g : group) (ac : authenticatedContent) (pskIDs : list preSharedKeyID) (psks : list bytes) (now : gotime)
  : group * res unit :=
  match fc_body (ac_content ac) with
  | BCommit c =>
    match checkCommit g (sender_leafIndex (fc_sender (ac_content ac))) c with
    | Err e => (g, Err e)
    | Panic p => (g, Panic p)
    | Hang => (g, Hang)
    | Ok (proposals, senders) =>
      match applyH (gr_heap g) (gr_tree g) proposals senders with
      | Err e => (g, Err e)
      | Panic p => (g, Panic p)
      | Hang => (g, Hang)
      | Ok (h, t) =>
        match finishCommit g ac c h t pskIDs psks now with
        | Ok g' => (g', Ok tt)
        | Err e => (withHeap g h, Err e)
        | Panic p => (g, Panic p)
        | Hang => (g, Hang)
        end
      end
    end
  | _ => (g, Panic "mls: expected a commit")
  end.

(** group.go:292-324 verifyPublicMessage *)
Definition verifyPublicMessage (g : group) (m : publicMessage) : res authenticatedContent :=
  let ctx := gr_context g in
  let! _ := guard (bytes_eqb (fc_groupID (pubm_content m)) (gc_groupID ctx)) "mls: message group ID mismatch" in
  let! _ := guard (fc_epoch (pubm_content m) =? gc_epoch ctx) "mls: epoch mismatch" in
  match fc_sender (pubm_content m) with
  | SMember li =>
    let! senderNode := getLeaf (gr_value g) li in
    match senderNode with
    | None => Err "mls: blank leaf node for sender"
    | Some sn =>
      let ac := pubMsgAuthContent m in
      let! sigok := authContentVerifySignature ac (ln_signatureKey sn) ctx in
      let! _ := guard sigok "mls: failed to verify public message signature" in
      let! membershipKey := deriveSecret (gc_cipherSuite ctx) (gr_epochSecret g) secretLabelMembership in
      let! tagok := verifyMembershipTag membershipKey ctx m in
      let! _ := guard tagok "failed to verify membership tag" in
      Ok ac
    end
  | _ => Err "mls: unsupported sender type"
  end.

(** group.go:273-290 processPublicMessage *)
Definition processPublicMessage (g : group) (m : publicMessage) (now : gotime) : group * res unit :=
  match verifyPublicMessage g m with
  | Ok ac =>
    match fc_body (ac_content ac) with
    | BProposal _ => processProposal g ac
    | BCommit _ => processCommit g ac [] [] now
    | BApplication _ => (g, Err "mls: application content type must be encrypted")
    end
  | Err e => (g, Err e)
  | Panic p => (g, Panic p)
  | Hang => (g, Hang)
  end.

(** group.go:362-369: [generation] steps of the ratchet; the generation counter
    starts at zero and cannot wrap before it reaches a uint32. *)
Fixpoint ratchetForward (cs : N) (s : ratchetSecret) (steps : nat) : res ratchetSecret :=
  match steps with
  | O => Ok s
  | S k => let! s' := deriveNext cs s in ratchetForward cs s' k
  end.

(** group.go:339-369, 788-806: the ratchet secret for a leaf, content type and
    generation *)
Definition messageSecret (g : group) (li ct generation : N) : res ratchetSecret :=
  let cs := gc_cipherSuite (gr_context g) in
  let! encryptionSecret := deriveSecret cs (gr_epochSecret g) secretLabelEncryption in
  let! st := deriveSecretTree cs (numLeaves (gr_tree g)) encryptionSecret in
  let! label := ratchetLabelFromContentType ct in
  let! secret := deriveRatchetRoot cs st (nodeIndexOf li) label in
  ratchetForward cs secret (N.to_nat generation).

(** group.go:326-384: processPrivateMessage up to the verified content *)
Definition openPrivateMessage (g : group) (m : privateMessage) : res authenticatedContent :=
  let ctx := gr_context g in
  let cs := gc_cipherSuite ctx in
  let! _ := guard (bytes_eqb (privm_groupID m) (gc_groupID ctx)) "mls: message group ID mismatch" in
  let! _ := guard (privm_epoch m =? gc_epoch ctx) "mls: epoch mismatch" in
  let! senderDataSecret := deriveSecret cs (gr_epochSecret g) secretLabelSenderData in
  let! sd := decryptSenderData cs m senderDataSecret in
  let! secret := messageSecret g (sd_leafIndex sd) (privm_contentType m) (sd_generation sd) in
  let! pc := decryptContent cs m secret (sd_reuseGuard sd) in
  let! signerNode := getLeaf (gr_value g) (sd_leafIndex sd) in
  match signerNode with
  | None => Err "mls: signer node is blank"
  | Some sn =>
    let ac := privMsgAuthContent m sd pc in
    let! sigok := authContentVerifySignature ac (ln_signatureKey sn) ctx in
    let! _ := guard sigok "failed to verify private message content signature" in
    Ok ac
  end.

Definition noData (r : group * res unit) : group * res (option bytes) :=
  (fst r, rmap (fun _ => None) (snd r)).

(** group.go:326-397 processPrivateMessage *)
Definition processPrivateMessage (g : group) (m : privateMessage) (now : gotime) : group * res (option bytes) :=
  match openPrivateMessage g m with
  | Ok ac =>
    match fc_body (ac_content ac) with
    | BProposal _ => noData (processProposal g ac)
    | BCommit _ => noData (processCommit g ac [] [] now)
    | BApplication data => (g, Ok (Some data))
    end
  | Err e => (g, Err e)
  | Panic p => (g, Panic p)
  | Hang => (g, Hang)
  end.

(** group.go:256-271 UnmarshalAndProcessMessage; [None] is a nil slice. *)
Definition unmarshalAndProcessMessage (g : group) (raw : bytes) (now : gotime) : group * res (option bytes) :=
  match unmarshal getMlsMessage raw with
  | Ok (MPublic m) => noData (processPublicMessage g m now)
  | Ok (MPrivate m) => processPrivateMessage g m now
  | Ok _ => (g, Err "mls: unsupported wire format")
  | Err e => (g, Err e)
  | Panic p => (g, Panic p)
  | Hang => (g, Hang)
  end.

(** ** Creating messages *)

(** group.go:782-826 Group.encryptPrivateMessage; [reuseGuard] is four random
    bytes. *)
Definition groupEncryptPrivateMessage (g : group) (content : framedContent) (pc : privateMessageContent) (reuseGuard : bytes)
  : res bytes :=
  let cs := gc_cipherSuite (gr_context g) in
  let sd := mkSenderData (gr_myLeafIndex g) 0 reuseGuard in
  let! secret := messageSecret g (gr_myLeafIndex g) (body_type (fc_body content)) 0 in
  let! senderDataSecret := deriveSecret cs (gr_epochSecret g) secretLabelSenderData in
  let! m := encryptPrivateMessage cs secret senderDataSecret content pc sd in
  putMlsMessage (MPrivate m).

(** group.go:763-773, 633-642: the content this member sends *)
Definition ownContent (g : group) (b : body) : framedContent :=
  mkFramedContent (gc_groupID (gr_context g)) (gc_epoch (gr_context g)) (SMember (gr_myLeafIndex g)) [] b.

(** group.go:761-780 CreateApplicationMessage *)
Definition createApplicationMessage (g : group) (data : bytes) (rndSign reuseGuard : bytes) : res bytes :=
  let cs := gc_cipherSuite (gr_context g) in
  let content := ownContent g (BApplication data) in
  let! pc := signPrivateMessageContent cs (gr_signaturePriv g) rndSign content (gr_context g) in
  groupEncryptPrivateMessage g content pc reuseGuard.

(** group.go:828-849 signPublicMessageMembershipTag *)
Definition signPublicMessageMembershipTag (g : group) (m : publicMessage) : res bytes :=
  let cs := gc_cipherSuite (gr_context g) in
  let! membershipKey := deriveSecret cs (gr_epochSecret g) secretLabelMembership in
  let! m' := signMembershipTag cs membershipKey (gr_context g) m in
  putMlsMessage (MPublic m').

(** group.go:720-739: the encrypted group secrets for the new members; [rnds]
    are the random bytes of the HPKE encryptions. *)
Fixpoint encryptSecretsFor (cs : N) (s : groupSecrets) (encryptedGroupInfo : bytes) (kps : list keyPackage) (rnds : list bytes)
  : res (list encryptedGroupSecrets) :=
  match kps with
  | [] => Ok []
  | kp :: r =>
    let! ref := keyPackageRef kp in
    let! ct := groupSecretsEncrypt cs s (kp_initKey kp) encryptedGroupInfo (hd [] rnds) in
    let! rest := encryptSecretsFor cs s encryptedGroupInfo r (tl rnds) in
    Ok (mkEncryptedGroupSecrets ref ct :: rest)
  end.

(** group.go:618-757: CreateWelcome once the additions have been applied to a
    copy of the tree.  Messages are always private ([public] is the constant
    false, group.go:644). *)
Definition finishWelcome (g : group) (kps : list keyPackage) (h : heap) (t : ptree)
    (rndSign rndInfo : bytes) (rndsHpke : list bytes) (reuseGuard : bytes) : res (welcome * bytes) :=
  let cs := gc_cipherSuite (gr_context g) in
  let! treeHash := computeRootTreeHash cs (deref h t) in
  let! nh := extractSize cs in
  let! pskSecret := extractPSKSecret cs [] [] in
  let content := ownContent g (BCommit (mkCommit (map (fun k => PorProposal (PAdd k)) kps) None)) in
  let! pc := signPrivateMessageContent cs (gr_signaturePriv g) rndSign content (gr_context g) in
  let ac := privContentAuthContent pc content in
  let! confirmed := confirmedTranscriptHash cs (ac_wireFormat ac) (ac_content ac) (ad_signature (ac_auth ac)) (gr_interimTranscriptHash g) in
  let ctx := nextContext (gr_context g) treeHash confirmed in
  let! joinerSecret := extractJoinerSecret ctx (gr_initSecret g) (zeros nh) in
  let! epochSecret := extractEpochSecret ctx joinerSecret pskSecret in
  let! confirmationTag := signConfirmationTag ctx epochSecret in
  let pc' := mkPrivateMessageContent (pmc_body pc) (mkAuthData (ad_signature (pmc_auth pc)) confirmationTag) in
  let! rawTree := putRatchetTree (deref h t) in
  let! gi := groupInfoSign (gr_signaturePriv g) rndInfo
               (mkGroupInfo ctx [mkExtension 2 rawTree] confirmationTag (gr_myLeafIndex g) []) in
  let! encryptedGroupInfo := groupInfoEncrypt gi joinerSecret pskSecret in
  let! secrets := encryptSecretsFor cs (mkGroupSecrets joinerSecret None []) encryptedGroupInfo kps rndsHpke in
  let! rawMsg := groupEncryptPrivateMessage g content pc' reuseGuard in
  Ok (mkWelcome cs secrets encryptedGroupInfo, rawMsg).

(** group.go:595-757 CreateWelcome: the tree is copied shallowly, as in
    processCommit. *)
Definition createWelcome (g : group) (kps : list keyPackage)
    (rndSign rndInfo : bytes) (rndsHpke : list bytes) (reuseGuard : bytes) : group * res (welcome * bytes) :=
  match kps with
  | [] => (g, Panic "mls: expected at least one key package")
  | _ =>
    match applyH (gr_heap g) (gr_tree g) (map PAdd kps) [gr_myLeafIndex g] with
    | Err e => (g, Err e)
    | Panic p => (g, Panic p)
    | Hang => (g, Hang)
    | Ok (h, t) => (withHeap g h, finishWelcome g kps h t rndSign rndInfo rndsHpke reuseGuard)
    end
  end.

End WithCrypto.
