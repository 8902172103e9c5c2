(** The cryptographic operations that creating a group, joining one, inviting
    and sending take (group.go:36-253, 595-826).

    The functions of Group.v once more, with the count of MessageWork.v; here
    making a signature or an encryption counts as one, too.  JoinWorkFacts.v
    shows that apart from the count these are the functions of Group.v. *)
From Verif Require Export MessageWork.

Section WithCrypto.
Context {C : crypto}.

(** group.go:36-98 CreateGroup; the confirmation tag takes a key and a MAC. *)
Definition countCreate (groupID : bytes) (kpp : keyPairPackage) (rnd : bytes) : counted group :=
  let kp := kpp_public kpp in
  let cs := kp_cipherSuite kp in
  let# (h, t) := costs 0 (addH [] [None] (kp_leafNode kp)) in
  let priv := [Some (kpp_encryptionKey kpp)] in
  let# treeHash := countRootTreeHash cs (deref h t) in
  let# d := costs 0 (describe cs) in
  let confirmed := zeros (hashSize (sd_hash d)) in
  let ctx := mkGroupContext (kp_version kp) cs groupID 0 treeHash confirmed [] in
  let# confirmationTag := costs 2 (signConfirmationTag ctx rnd) in
  let# interim := costs 1 (nextInterimTranscriptHash cs confirmed confirmationTag) in
  let# pskSecret := costs 0 (extractPSKSecret cs [] []) in
  let# initSecret := costs 1 (deriveSecret cs rnd secretLabelInit) in
  costs 0 (Ok (mkGroup h t ctx interim pskSecret rnd initSecret 0 priv (kpp_signatureKey kpp) [])).

(** group.go:229-250 *)
Fixpoint countPathSecretLoop (fuel : nat) (cs : N) (t : ratchetTree) (priv : privTree) (pathSecret : bytes) (x : N)
  : counted privTree :=
  match parent (numLeaves t) x with
  | None => costs 0 (Ok priv)
  | Some x' =>
    let# pathSecret' := costs 1 (deriveSecret cs pathSecret (str "path")) in
    let# o := costs 0 (getN t x') in
    match o with
    | None => costs 0 (Panic "nil pointer dereference")
    | Some n =>
      let# nodePriv := countNodePriv cs pathSecret' (node_encryptionKey n) in
      let# priv' := costs 0 (setN priv x' (Some nodePriv)) in
      match fuel with
      | O => costs 0 Hang
      | S f => countPathSecretLoop f cs t priv' pathSecret x'
      end
    end
  end.

(** group.go:222-253 processPathSecret *)
Definition countPathSecret (cs : N) (t : ratchetTree) (priv : privTree) (pathSecret : bytes) (x : N) : counted privTree :=
  let# o := costs 0 (getN t x) in
  match o with
  | None => costs 0 (Panic "nil pointer dereference")
  | Some n =>
    let# nodePriv := countNodePriv cs pathSecret (node_encryptionKey n) in
    let# priv' := costs 0 (setN priv x (Some nodePriv)) in
    countPathSecretLoop 33 cs t priv' pathSecret x
  end.

(** group.go:129-220 groupFromSecrets.  The group information takes a secret
    (extracted and expanded), a key, a nonce and a decryption; its confirmation
    tag takes the epoch secret, a key and a MAC. *)
Definition countFromSecrets (w : welcome) (kpp : keyPairPackage) (s : groupSecrets)
    (rawTree : option bytes) (psks : list bytes) (now : gotime) : counted group :=
  let# pskSecret := costs (3 * lenN (gs_psks s)) (extractPSKSecret (w_cipherSuite w) (gs_psks s) psks) in
  let# gi := costs 5 (decryptGroupInfo w (gs_joinerSecret s) pskSecret) in
  let rawTree' := match rawTree with Some r => Some r | None => findExtensionData (gi_extensions gi) 2 end in
  match rawTree' with
  | None => costs 0 (Err "mls: missing ratchet tree")
  | Some raw =>
    let# t := costs 0 (unmarshal getRatchetTree raw) in
    let# signerNode := costs 0 (getLeaf t (gi_signer gi)) in
    match signerNode with
    | None => costs 0 (Err "mls: signer node is blank")
    | Some signer =>
      let# sigok := costs 1 (groupInfoVerifySignature gi (ln_signatureKey signer)) in
      let# _ := costs 0 (guard sigok "mls: failed to verify signer node signature") in
      let# tagok := costs 4 (groupInfoVerifyConfirmationTag gi (gs_joinerSecret s) pskSecret) in
      let# _ := costs 0 (guard tagok "mls: failed to verify confirmation tag") in
      let ctx := gi_groupContext gi in
      let# _ := costs 0 (guard (gc_cipherSuite ctx =? w_cipherSuite w) "mls: group info cipher suite doesn't match key package") in
      let# _ := countIntegrity t ctx now in
      let# epochSecret := costs 2 (extractEpochSecret ctx (gs_joinerSecret s) pskSecret) in
      let# initSecret := costs 1 (deriveSecret (gc_cipherSuite ctx) epochSecret secretLabelInit) in
      let# interim := costs 1 (nextInterimTranscriptHash (gc_cipherSuite ctx) (gc_confirmedTranscriptHash ctx) (gi_confirmationTag gi)) in
      let# mine := costs 0 (findLeaf t (kp_leafNode (kpp_public kpp))) in
      match mine with
      | None => costs 0 (Err "mls: failed to find my leaf node in ratchet tree")
      | Some me =>
        let# priv := costs 0 (setN (repeat None (length t)) (nodeIndexOf me) (Some (kpp_encryptionKey kpp))) in
        let# priv' := match gs_pathSecret s with
                      | None => costs 0 (Ok priv)
                      | Some pathSecret =>
                        countPathSecret (gc_cipherSuite ctx) t priv pathSecret
                          (commonAncestor (nodeIndexOf me) (nodeIndexOf (gi_signer gi)))
                      end in
        let '(h, pt) := load t in
        costs 0 (Ok (mkGroup h pt ctx interim pskSecret epochSecret initSecret me priv' (kpp_signatureKey kpp) []))
      end
    end
  end.

(** group.go:101-121 GroupFromWelcome: a hash for the reference of the key
    package and a decryption of the group secrets *)
Definition countJoin (w : welcome) (kpp : keyPairPackage) (now : gotime) : counted group :=
  let# ref := costs 1 (keyPackageRef (kpp_public kpp)) in
  let# s := costs 1 (decryptGroupSecrets w ref (kpp_initKey kpp)) in
  let# _ := costs 0 (guard (verifySingleReinitOrBranchPSK s) "mls: more than one key has usage reinit or branch in group secrets") in
  let# _ := costs 0 (guard (lenN (gs_psks s) =? 0) "mls: group secret PSKs are not yet supported") in
  countFromSecrets w kpp s None [] now.

(** group.go:782-826: the content and the sender data each take a key, a nonce
    and an encryption. *)
Definition countEncrypt (g : group) (content : framedContent) (pc : privateMessageContent) (reuseGuard : bytes) : counted bytes :=
  let cs := gc_cipherSuite (gr_context g) in
  let sd := mkSenderData (gr_myLeafIndex g) 0 reuseGuard in
  let# secret := countSecret g (gr_myLeafIndex g) (body_type (fc_body content)) 0 in
  let# senderDataSecret := costs 1 (deriveSecret cs (gr_epochSecret g) secretLabelSenderData) in
  let# m := costs 6 (encryptPrivateMessage cs secret senderDataSecret content pc sd) in
  costs 0 (putMlsMessage (MPrivate m)).

(** group.go:761-780 CreateApplicationMessage *)
Definition countSend (g : group) (data : bytes) (rndSign reuseGuard : bytes) : counted bytes :=
  let cs := gc_cipherSuite (gr_context g) in
  let content := ownContent g (BApplication data) in
  let# pc := costs 1 (signPrivateMessageContent cs (gr_signaturePriv g) rndSign content (gr_context g)) in
  countEncrypt g content pc reuseGuard.

(** group.go:720-739: a hash and an encryption for every new member *)
Fixpoint countSecretsFor (cs : N) (s : groupSecrets) (encryptedGroupInfo : bytes) (kps : list keyPackage) (rnds : list bytes)
  : counted (list encryptedGroupSecrets) :=
  match kps with
  | [] => costs 0 (Ok [])
  | kp :: r =>
    let# ref := costs 1 (keyPackageRef kp) in
    let# ct := costs 1 (groupSecretsEncrypt cs s (kp_initKey kp) encryptedGroupInfo (hd [] rnds)) in
    let# rest := countSecretsFor cs s encryptedGroupInfo r (tl rnds) in
    costs 0 (Ok (mkEncryptedGroupSecrets ref ct :: rest))
  end.

(** group.go:618-757 *)
Definition countFinishWelcome (g : group) (kps : list keyPackage) (h : heap) (t : ptree)
    (rndSign rndInfo : bytes) (rndsHpke : list bytes) (reuseGuard : bytes) : counted (welcome * bytes) :=
  let cs := gc_cipherSuite (gr_context g) in
  let# treeHash := countRootTreeHash cs (deref h t) in
  let# nh := costs 0 (extractSize cs) in
  let# pskSecret := costs 0 (extractPSKSecret cs [] []) in
  let content := ownContent g (BCommit (mkCommit (map (fun k => PorProposal (PAdd k)) kps) None)) in
  let# pc := costs 1 (signPrivateMessageContent cs (gr_signaturePriv g) rndSign content (gr_context g)) in
  let ac := privContentAuthContent pc content in
  let# confirmed := costs 1 (confirmedTranscriptHash cs (ac_wireFormat ac) (ac_content ac) (ad_signature (ac_auth ac)) (gr_interimTranscriptHash g)) in
  let ctx := nextContext (gr_context g) treeHash confirmed in
  let# joinerSecret := costs 2 (extractJoinerSecret ctx (gr_initSecret g) (zeros nh)) in
  let# epochSecret := costs 2 (extractEpochSecret ctx joinerSecret pskSecret) in
  let# confirmationTag := costs 2 (signConfirmationTag ctx epochSecret) in
  let pc' := mkPrivateMessageContent (pmc_body pc) (mkAuthData (ad_signature (pmc_auth pc)) confirmationTag) in
  let# rawTree := costs 0 (putRatchetTree (deref h t)) in
  let# gi := costs 1 (groupInfoSign (gr_signaturePriv g) rndInfo
               (mkGroupInfo ctx [mkExtension 2 rawTree] confirmationTag (gr_myLeafIndex g) [])) in
  let# encryptedGroupInfo := costs 5 (groupInfoEncrypt gi joinerSecret pskSecret) in
  let# secrets := countSecretsFor cs (mkGroupSecrets joinerSecret None []) encryptedGroupInfo kps rndsHpke in
  let# rawMsg := countEncrypt g content pc' reuseGuard in
  costs 0 (Ok (mkWelcome cs secrets encryptedGroupInfo, rawMsg)).

(** group.go:595-757 CreateWelcome *)
Definition countInvite (g : group) (kps : list keyPackage)
    (rndSign rndInfo : bytes) (rndsHpke : list bytes) (reuseGuard : bytes) : (group * res (welcome * bytes)) * N :=
  match kps with
  | [] => ((g, Panic "mls: expected at least one key package"), 0)
  | _ =>
    match applyH (gr_heap g) (gr_tree g) (map PAdd kps) [gr_myLeafIndex g] with
    | Err e => ((g, Err e), 0)
    | Panic p => ((g, Panic p), 0)
    | Hang => ((g, Hang), 0)
    | Ok (h, t) =>
      let (r, n) := countFinishWelcome g kps h t rndSign rndInfo rndsHpke reuseGuard in
      ((withHeap g h, r), n)
    end
  end.
End WithCrypto.
