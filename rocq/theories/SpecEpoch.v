(** What RFC 9420 prescribes of new groups, new epochs, Welcomes and messages,
    in terms of SpecWire.v, SpecRfc.v and SpecTreeHash.v. *)
From Verif Require Export SpecCodec SpecTreeHash SpecObtained.
From Verif Require SpecCommitTree.

(** ** What is signed (sections 5.1.2, 6.1, 7.2, 10 and 12.4.3) *)
Definition signed_label (o : signedObject) : bytes :=
  match o with
  | SignLeafNode _ _ _ => str "LeafNodeTBS"
  | SignKeyPackage _ => str "KeyPackageTBS"
  | SignGroupInfo _ => str "GroupInfoTBS"
  | SignFramedContent _ _ _ => str "FramedContentTBS"
  end.
Definition signed_content (o : signedObject) : bytes :=
  match o with
  | SignLeafNode l g i => enc_leafNodeTBS l g i
  | SignKeyPackage k => enc_keyPackageTBS k
  | SignGroupInfo g => enc_groupInfoTBS g
  | SignFramedContent w c x => enc_framedContentTBS w c x
  end.

Section WithCrypto.
Context {C : crypto}.

(** [r] tells whether [sig] is a signature of [o] under [key]. *)
Definition checks_signature (cs : N) (key : bytes) (o : signedObject) (sig : bytes) (r : res bool) : Prop :=
  (r = Ok true -> VerifyWithLabel cs key (signed_label o) (signed_content o) sig) /\
  (wf_signedObject o -> lenN (signed_content o) < 2 ^ 30 -> VerifyWithLabel cs key (signed_label o) (signed_content o) sig -> r = Ok true).

(** ** A new group (section 11): one member, epoch 0, a transcript hash of
    zeroes *)
Definition new_group (groupID : bytes) (kpp : keyPairPackage) (epochSecret : bytes) (g : group) : Prop :=
  let kp := kpp_public kpp in
  let cs := kp_cipherSuite kp in
  gr_value g = [Some (NLeaf (kp_leafNode kp))] /\
  gr_context g = mkGroupContext (kp_version kp) cs groupID 0 (tree_hash cs 0 (gr_value g) [] 0 []) (zeroes (hashSize (hashOf cs))) [] /\
  gr_epochSecret g = epochSecret /\
  gr_interimTranscriptHash g =
    interim_transcript_hash cs (gc_confirmedTranscriptHash (gr_context g)) (confirmation_tag (gr_context g) epochSecret) /\
  gr_initSecret g = DeriveSecret cs epochSecret (str "init") /\
  gr_myLeafIndex g = 0 /\ gr_privTree g = [Some (kpp_encryptionKey kpp)] /\ gr_signaturePriv g = kpp_signatureKey kpp /\ gr_pending g = [].

(** ** The commit secret (sections 7.4 and 12.4.2) *)
(** The path secret [n] nodes further up *)
Definition path_secret_up (cs : N) (n : nat) (s : bytes) : bytes := Nat.iter n (fun s => DeriveSecret cs s (str "path")) s.
(** Without a path, zeroes; with one, a path secret is decrypted with a private
    key of the member, in the group context of the new epoch with the transcript
    hash of the old one, and the path secret after the last is the commit
    secret. *)
Definition commit_secret (cs : N) (privs : list (option bytes)) (provisional : groupContext) (path : option updatePath) (commitSecret : bytes) : Prop :=
  match path with
  | None => commitSecret = zeroes (secretSize cs)
  | Some up => exists before u after c priv s,
      up_nodes up = before ++ u :: after /\ In (Some priv) privs /\ In c (upn_encryptedPathSecret u) /\
      DecryptWithLabel cs priv (str "UpdatePathNode") (enc_groupContext provisional) (hc_kemOutput c) (hc_ciphertext c) s /\
      commitSecret = path_secret_up cs (S (length after)) s
  end.

(** ** The state [g'] after a commit (sections 8 and 12.4.2) *)
Definition new_epoch (g : group) (ac : authenticatedContent) (c : commit) (g' : group) : Prop :=
  let cs := gc_cipherSuite (gr_context g) in
  let confirmed :=
    confirmed_transcript_hash cs (gr_interimTranscriptHash g) (ac_wireFormat ac) (ac_content ac) (ad_signature (ac_auth ac)) in
  exists k commitSecret,
    let treeHash := tree_hash cs k (gr_value g') [] k [] in
    shaped k (gr_value g') /\
    gr_context g' = next_context (gr_context g) treeHash confirmed /\
    gr_interimTranscriptHash g' = interim_transcript_hash cs confirmed (ad_confirmationTag (ac_auth ac)) /\
    commit_secret cs (gr_privTree g) (next_context (gr_context g) treeHash (gc_confirmedTranscriptHash (gr_context g))) (c_path c) commitSecret /\
    gr_epochSecret g' =
      epoch_secret (gr_context g') (joiner_secret (gr_context g') (gr_initSecret g) commitSecret) (psk_secret cs []) /\
    gr_initSecret g' = DeriveSecret cs (gr_epochSecret g') (str "init").

(** ** A commit that adds members, and the Welcome for them (sections 12.4.1 and
    12.4.3.1): [rnd]s are the random bytes of the signatures, [guard] is the
    reuse guard. *)
Definition group_secrets_for (cs : N) (joiner egi : bytes) (kp : keyPackage) (s : encryptedGroupSecrets) : Prop :=
  egs_newMember s = KeyPackageRef kp /\
  exists rnd, EncryptWithLabel cs (kp_initKey kp) (str "Welcome") egi (enc_groupSecrets (mkGroupSecrets joiner None [])) rnd
    (hc_kemOutput (egs_secrets s)) (hc_ciphertext (egs_secrets s)).

Definition member_content (g : group) (b : body) : framedContent :=
  mkFramedContent (gc_groupID (gr_context g)) (gc_epoch (gr_context g)) (SMember (gr_myLeafIndex g)) [] b.
(** The message of a member in its ratchet's first generation *)
Definition member_message (g : group) (k : nat) (b : body) (a : authData) (guard : bytes) : bytes :=
  enc_mlsMessage (MPrivate (private_message (gr_context g) (gr_epochSecret g) (leafPath k (designated (gr_myLeafIndex g)))
    (mkSenderData (gr_myLeafIndex g) 0 guard) (member_content g b) a 0)).

Definition adds_with_welcome (g : group) (kps : list keyPackage) (rnd rndInfo guard : bytes) (w : welcome) (raw : bytes) : Prop :=
  let cs := gc_cipherSuite (gr_context g) in
  let b := BCommit (mkCommit (map (fun k => PorProposal (PAdd k)) kps) None) in
  exists k k' t sig infoSig,
    let ctx := next_context (gr_context g) (tree_hash cs k' t [] k' [])
                 (confirmed_transcript_hash cs (gr_interimTranscriptHash g) 2 (member_content g b) sig) in
    let joiner := joiner_secret ctx (gr_initSecret g) (zeroes (secretSize cs)) in
    let tag := confirmation_tag ctx (epoch_secret ctx joiner (psk_secret cs [])) in
    let info := mkGroupInfo ctx [mkExtension 2 (enc_ratchetTree t)] tag (gr_myLeafIndex g) infoSig in
    shaped k (gr_value g) /\ shaped k' t /\ fills (leaf_at (gr_value g)) (map kp_leafNode kps) (leaf_at t) /\
    SpecCommitTree.after_proposals (gr_value g) (map (fun k => (PAdd k, gr_myLeafIndex g)) kps) t /\
    SignWithLabel cs (gr_signaturePriv g) (str "FramedContentTBS") (enc_framedContentTBS 2 (member_content g b) (gr_context g)) rnd sig /\
    SignWithLabel cs (gr_signaturePriv g) (str "GroupInfoTBS") (enc_groupInfoTBS info) rndInfo infoSig /\
    w_cipherSuite w = cs /\
    w_encryptedGroupInfo w = encrypted_group_info cs joiner (psk_secret cs []) info /\
    Forall2 (group_secrets_for cs joiner (w_encryptedGroupInfo w)) kps (w_secrets w) /\
    raw = member_message g k b (mkAuthData sig tag) guard.
End WithCrypto.
