(** Commits with an update path, produced as RFC 9420 prescribes (sections 7.4
    to 7.6 and 12.4.1).  go-mls only processes such commits; this is the peer it
    talks to, used to state properties and to exhibit concrete runs.  It is not
    a model of code in /repo. *)
From Verif Require Export Group.

Section WithCrypto.
Context {C : crypto}.

(** The path secrets of [n] nodes, and the secret after the last one, which is
    the commit secret *)
Fixpoint pathChain (cs : N) (s : bytes) (n : nat) : res (list bytes * bytes) :=
  match n with
  | O => Ok ([], s)
  | S k =>
    let! s' := deriveSecret cs s (str "path") in
    let! (r, z) := pathChain cs s' k in
    Ok (s :: r, z)
  end.

(** The key pair of a node with a given path secret *)
Definition nodeKeyPair (cs : N) (pathSecret : bytes) : res (bytes * bytes) :=
  let! nodeSecret := deriveSecret cs pathSecret (str "node") in
  deriveEncryptionKeyPair cs nodeSecret.

Fixpoint mapM {A B} (f : A -> res B) (l : list A) : res (list B) :=
  match l with
  | [] => Ok []
  | a :: r => let! b := f a in let! bs := mapM f r in Ok (b :: bs)
  end.

(** The child of [p] that is not on the path from the leaf at node [sender] *)
Definition copathChild (sender p : N) (directPath : list N) : res N :=
  match children p with
  | None => Panic "no children"
  | Some (l, r) => Ok (if (l =? sender) || memN l directPath then r else l)
  end.

(** Encrypt a path secret to every node of the resolution of a copath node,
    except those listed in [excluded]; [rnds] gives the random bytes. *)
Definition encryptPathSecret (cs : N) (t : ratchetTree) (ctx : groupContext) (excluded : list N) (rnd : bytes)
    (copathNode : N) (pathSecret : bytes) : res (list hpkeCiphertext) :=
  let! resolution := resolve t copathNode in
  let! raw := putGroupContext ctx in
  mapM (fun x =>
          let! o := getN t x in
          match o with
          | None => Panic "blank node in resolution"
          | Some n =>
            let! (ko, ct) := encryptWithLabel cs (node_encryptionKey n) (str "UpdatePathNode") raw pathSecret rnd in
            Ok (mkHpkeCiphertext ko ct)
          end) (filter (fun x => negb (memN x excluded)) resolution).

(** The update path of the member at leaf [li] of the tree [t] (after the
    proposals): fresh leaf keys [leafPub], first path secret [seed].  Returns
    the path, the commit secret and the new tree. *)
Definition makePath (cs : N) (t : ratchetTree) (ctx : groupContext) (excluded : list N) (li : N)
    (old : leafNode) (leafPub sigPriv rndSig seed rnd : bytes) : res (updatePath * bytes * ratchetTree) :=
  let sender := nodeIndexOf li in
  let! dp := directPath (numLeaves t) sender in
  let! t1 := foldM (fun t x => setN t x None) t dp in
  let! fdp := filteredDirectPath t1 sender in
  let! (secrets, commitSecret) := pathChain cs seed (length fdp) in
  let! keys := mapM (nodeKeyPair cs) secrets in
  let! t2 := foldM (fun t p => setN t (fst p) (Some (NParent (mkParentNode (fst (snd p)) [] [])))) t1 (combine fdp keys) in
  let! (t3, parentHash) := mergeParentHashes cs sender dp t2 [] (rev fdp) in
  let! leaf := leafNodeSign cs (gc_groupID ctx) li sigPriv rndSig
                 (mkLeafNode leafPub (ln_signatureKey old) (ln_credential old) (ln_capabilities old) leafNodeSourceCommit
                    None parentHash (ln_extensions old) []) in
  let! t4 := setN t3 sender (Some (NLeaf leaf)) in
  let! treeHash := computeRootTreeHash cs t4 in
  let ctx' := nextContext ctx treeHash (gc_confirmedTranscriptHash ctx) in
  let! nodes := mapM (fun p =>
                  let '(x, (secret, (pub, _))) := p in
                  let! c := copathChild sender x dp in
                  let! cts := encryptPathSecret cs t4 ctx' excluded rnd c secret in
                  Ok (mkUpdatePathNode pub cts)) (combine fdp (combine secrets keys)) in
  Ok (mkUpdatePath leaf nodes, commitSecret, t4).

(** The content of a commit of member [li] with an update path, and its
    confirmation tag (section 12.4.1) *)
Definition makeCommit (g : group) (li : N) (wf : N) (por : list proposalOrRef) (excluded : list N) (leafPub rndSig seed rnd : bytes)
  : res (framedContent * authData) :=
  let cs := gc_cipherSuite (gr_context g) in
  let! ps := resolveProposals por li (gr_pending g) in
  let! t := vapply (gr_value g) (map fst ps) (map snd ps) in
  let! o := getLeaf (gr_value g) li in
  match o with
  | None => Panic "blank leaf"
  | Some old =>
    let! (path, commitSecret, t') := makePath cs t (gr_context g) excluded li old leafPub (gr_signaturePriv g) rndSig seed rnd in
    let content := mkFramedContent (gc_groupID (gr_context g)) (gc_epoch (gr_context g)) (SMember li) [] (BCommit (mkCommit por (Some path))) in
    let! ac := signAuthenticatedContent cs (gr_signaturePriv g) rndSig wf content (gr_context g) in
    let! treeHash := computeRootTreeHash cs t' in
    let! confirmed := confirmedTranscriptHash cs wf content (ad_signature (ac_auth ac)) (gr_interimTranscriptHash g) in
    let ctx := nextContext (gr_context g) treeHash confirmed in
    let! joiner := extractJoinerSecret ctx (gr_initSecret g) commitSecret in
    let! psk := extractPSKSecret cs [] [] in
    let! epochSecret := extractEpochSecret ctx joiner psk in
    let! tag := signConfirmationTag ctx epochSecret in
    Ok (content, mkAuthData (ad_signature (ac_auth ac)) tag)
  end.

(** A public message of a member *)
Definition publicBytes (g : group) (content : framedContent) (auth : authData) : res bytes :=
  signPublicMessageMembershipTag g (mkPublicMessage content auth []).

(** Sign a content without a path (proposals, commits of additions) and send it
    as a public message, with the given confirmation tag. *)
Definition sendPublic (g : group) (li : N) (b : body) (rndSig tag : bytes) : res bytes :=
  let content := mkFramedContent (gc_groupID (gr_context g)) (gc_epoch (gr_context g)) (SMember li) [] b in
  let! ac := signAuthenticatedContent (gc_cipherSuite (gr_context g)) (gr_signaturePriv g) rndSig wireFormatMLSPublicMessage
               content (gr_context g) in
  publicBytes g content (mkAuthData (ad_signature (ac_auth ac)) tag).

Definition sendPathCommit (g : group) (li : N) (por : list proposalOrRef) (excluded : list N) (leafPub rndSig seed rnd : bytes) : res bytes :=
  let! (content, auth) := makeCommit g li wireFormatMLSPublicMessage por excluded leafPub rndSig seed rnd in
  publicBytes g content auth.
End WithCrypto.
