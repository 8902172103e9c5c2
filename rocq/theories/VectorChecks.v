(** The Go tests of the project, on the model: each function follows one test
    function of a file [*_test.go] and returns the names of the checks that
    fail.  A test vector is a JSON object; hexadecimal strings are given as
    bytes.  Randomness, which the Go tests read from crypto/rand, is [rnd]. *)
From Coq Require Import Ascii.
From Verif Require Export Group RealCrypto.

Inductive json :=
| JNull
| JNum (n : N)
| JBytes (b : bytes)
| JList (l : list json)
| JObject (l : list (string * json)).

Definition field (j : json) (name : string) : json :=
  match j with
  | JObject l => match find (fun p => String.eqb (fst p) name) l with Some p => snd p | None => JNull end
  | _ => JNull
  end.
Definition num (j : json) : N := match j with JNum n => n | _ => 0 end.
Definition raw (j : json) : bytes := match j with JBytes b => b | _ => [] end.
Definition items (j : json) : list json := match j with JList l => l | _ => [] end.
Notation "j # name" := (field j name%string) (at level 1, left associativity).

(** Hexadecimal digits *)
Definition digit (a : ascii) : N :=
  let n := N_of_ascii a in if n <? 58 then n - 48 else n - 87.
Fixpoint hex (s : string) : bytes :=
  match s with
  | String a (String b r) => n2b (16 * digit a + digit b) :: hex r
  | _ => []
  end.

Definition failures : Type := list string.
Definition expect (name : string) (b : bool) : failures := if b then [] else [name].
Definition got (m : res bytes) (want : bytes) : bool := match m with Ok b => bytes_eqb b want | _ => false end.
Definition holds (m : res bool) : bool := match m with Ok b => b | _ => false end.
Definition with_ {A} (name : string) (m : res A) (k : A -> failures) : failures :=
  match m with
  | Ok a => k a
  | Err e => [String.append name (String.append ": " e)]
  | Panic p => [String.append name (String.append " panics: " p)]
  | Hang => [String.append name " hangs"]
  end.
Fixpoint numbered {A} (i : N) (l : list A) : list (N * A) :=
  match l with [] => [] | a :: r => (i, a) :: numbered (i + 1) r end.
Definition listN_eqb (a b : list N) : bool := (length a =? length b)%nat && forallb (fun p => fst p =? snd p) (combine a b).
Definition rnd : bytes := repeat x2a 80.
Definition noTime : gotime := mkTime 0 0.

(** mls_test.go TestDeserialization *)
Definition checkDeserialization (j : json) : failures :=
  match readVarint (raw j#"vlbytes_header") with
  | (Ok n, rest) => expect "length" (n =? num j#"length") ++ expect "rest" (lenN rest =? 0)
  | _ => ["readVarint"%string]
  end.

(** tree_math_test.go testTreeMath *)
Definition optN (j : json) : option N := match j with JNum n => Some n | _ => None end.
Definition optN_eqb (a b : option N) : bool :=
  match a, b with Some x, Some y => x =? y | None, None => true | _, _ => false end.
Definition indices (name : string) (f : N -> option N) (j : json) : failures :=
  expect name (forallb (fun p => optN_eqb (f (fst p)) (optN (snd p))) (numbered 0 (items j#name))).
Definition checkTreeMath (j : json) : failures :=
  let n := num j#"n_leaves" in
  expect "width" (width n =? num j#"n_nodes") ++
  expect "root" (root n =? num j#"root") ++
  indices "left" left j ++ indices "right" right j ++
  indices "parent" (parent n) j ++ indices "sibling" (sibling n) j.

(** framing_test.go testMessages *)
Definition reencode {A} (name : string) (get : reader A) (put : A -> W) (j : json) : failures :=
  let b := raw j#name in
  with_ name (unmarshal get b) (fun a => expect name (got (marshal put a) b)).
Definition checkMessages (j : json) : failures :=
  let message name := reencode name getMlsMessage putMlsMessage j in
  message "mls_welcome"%string ++ message "mls_group_info"%string ++ message "mls_key_package"%string ++
  reencode "ratchet_tree" getRatchetTree putRatchetTree j ++
  reencode "group_secrets" getGroupSecrets putGroupSecrets j ++
  reencode "add_proposal" getKeyPackage putKeyPackage j ++
  reencode "update_proposal" getLeafNode putLeafNode j ++
  reencode "remove_proposal" readUint32 addUint32 j ++
  reencode "pre_shared_key_proposal" getPskID putPskID j ++
  reencode "re_init_proposal" getReInit putReInit j ++
  reencode "external_init_proposal" readOpaqueVec writeOpaqueVec j ++
  reencode "group_context_extensions_proposal" getExtensionVec putExtensionVec j ++
  reencode "commit" getCommit putCommit j ++
  message "public_message_application"%string ++ message "public_message_proposal"%string ++
  message "public_message_commit"%string ++ message "private_message"%string.

Section WithCrypto.
Context {C : crypto}.

(** ciphersuite_test.go TestCryptoBasics *)
Definition checkCryptoBasics (j : json) : failures :=
  let cs := num j#"cipher_suite" in
  let r := j#"ref_hash" in let e := j#"expand_with_label" in let d := j#"derive_secret" in
  let t := j#"derive_tree_secret" in let s := j#"sign_with_label" in let h := j#"encrypt_with_label" in
  expect "ref_hash" (got (refHash cs (raw r#"label") (raw r#"value")) (raw r#"out")) ++
  expect "expand_with_label"
    (got (expandWithLabel cs (raw e#"secret") (raw e#"label") (raw e#"context") (num e#"length")) (raw e#"out")) ++
  expect "derive_secret" (got (deriveSecret cs (raw d#"secret") (raw d#"label")) (raw d#"out")) ++
  expect "derive_tree_secret"
    (got (deriveTreeSecret cs (raw t#"secret") (raw t#"label") (num t#"generation") (num t#"length")) (raw t#"out")) ++
  expect "verify" (holds (verifyWithLabel cs (raw s#"pub") (raw s#"label") (raw s#"content") (raw s#"signature"))) ++
  with_ "sign" (signWithLabel cs (raw s#"priv") rnd (raw s#"label") (raw s#"content")) (fun sig =>
    expect "verify own" (holds (verifyWithLabel cs (raw s#"pub") (raw s#"label") (raw s#"content") sig))) ++
  expect "decrypt"
    (got (decryptWithLabel cs (raw h#"priv") (raw h#"label") (raw h#"context") (raw h#"kem_output") (raw h#"ciphertext"))
         (raw h#"plaintext")) ++
  with_ "encrypt" (encryptWithLabel cs (raw h#"pub") (raw h#"label") (raw h#"context") (raw h#"plaintext") rnd) (fun ct =>
    expect "decrypt own"
      (got (decryptWithLabel cs (raw h#"priv") (raw h#"label") (raw h#"context") (fst ct) (snd ct)) (raw h#"plaintext"))).

(** key_schedule_test.go testPSKSecret *)
Definition checkPSKSecret (j : json) : failures :=
  let ids := map (fun p => PskExternal (raw p#"psk_id") (raw p#"psk_nonce")) (items j#"psks") in
  let psks := map (fun p => raw p#"psk") (items j#"psks") in
  expect "psk_secret" (got (extractPSKSecret (num j#"cipher_suite") ids psks) (raw j#"psk_secret")).

(** key_schedule_test.go testKeySchedule *)
Fixpoint checkEpochs (cs : N) (groupID initSecret : bytes) (l : list (N * json)) : failures :=
  match l with
  | [] => []
  | (i, e) :: r =>
    let ctx := mkGroupContext 1 cs groupID i (raw e#"tree_hash") (raw e#"confirmed_transcript_hash") [] in
    expect "group_context" (got (marshal putGroupContext ctx) (raw e#"group_context")) ++
    with_ "joiner_secret" (extractJoinerSecret ctx initSecret (raw e#"commit_secret")) (fun joiner =>
    expect "joiner_secret" (bytes_eqb joiner (raw e#"joiner_secret")) ++
    expect "welcome_secret" (got (extractWelcomeSecret cs joiner (raw e#"psk_secret")) (raw e#"welcome_secret")) ++
    with_ "epoch_secret" (extractEpochSecret ctx joiner (raw e#"psk_secret")) (fun epochSecret =>
    flat_map (fun p => expect (snd p) (got (deriveSecret cs epochSecret (fst p)) (raw (field e (snd p)))))
      [(secretLabelInit, "init_secret"%string); (secretLabelSenderData, "sender_data_secret"%string);
       (secretLabelEncryption, "encryption_secret"%string); (secretLabelExporter, "exporter_secret"%string);
       (secretLabelExternal, "external_secret"%string); (secretLabelConfirm, "confirmation_key"%string);
       (secretLabelMembership, "membership_key"%string); (secretLabelResumption, "resumption_psk"%string)] ++
    (if supported cs
     then with_ "external_pub" (deriveEncryptionKeyPair cs (raw e#"external_secret")) (fun kp =>
            expect "external_pub" (bytes_eqb (fst kp) (raw e#"external_pub")))
     else []) ++
    expect "exporter"
      (got (deriveExporter cs (raw e#"exporter_secret") (raw e#"exporter"#"label") (raw e#"exporter"#"context")
              (num e#"exporter"#"length")) (raw e#"exporter"#"secret")) ++
    with_ "init_secret" (deriveSecret cs epochSecret secretLabelInit) (fun initSecret' =>
    checkEpochs cs groupID initSecret' r)))
  end.
Definition checkKeySchedule (j : json) : failures :=
  checkEpochs (num j#"cipher_suite") (raw j#"group_id") (raw j#"initial_init_secret") (numbered 0 (items j#"epochs")).

(** key_schedule_test.go testTranscriptHashes *)
Definition checkTranscriptHashes (j : json) : failures :=
  let cs := num j#"cipher_suite" in
  with_ "unmarshal" (unmarshal getAuthenticatedContent (raw j#"authenticated_content")) (fun ac =>
  expect "contentType" (body_type (fc_body (ac_content ac)) =? 3) ++
  expect "confirmation tag"
    (holds (authDataVerifyConfirmationTag cs (ac_auth ac) (raw j#"confirmation_key") (raw j#"confirmed_transcript_hash_after"))) ++
  with_ "confirmed" (confirmedTranscriptHash cs (ac_wireFormat ac) (ac_content ac) (ad_signature (ac_auth ac))
                       (raw j#"interim_transcript_hash_before")) (fun confirmed =>
  expect "confirmed" (bytes_eqb confirmed (raw j#"confirmed_transcript_hash_after")) ++
  expect "interim" (got (nextInterimTranscriptHash cs confirmed (ad_confirmationTag (ac_auth ac)))
                        (raw j#"interim_transcript_hash_after")))).

(** secret_tree_test.go testSecretTree *)
Fixpoint checkGenerations (cs : N) (key nonce : string) (s : ratchetSecret) (l : list json) : failures :=
  match l with
  | [] => []
  | gen :: r =>
    with_ "deriveNext" (ratchetForward cs s (N.to_nat (num gen#"generation" - rs_generation s))) (fun s' =>
    expect key (got (deriveKey cs s') (raw (field gen key))) ++
    expect nonce (got (deriveNonce cs s') (raw (field gen nonce))) ++
    checkGenerations cs key nonce s' r)
  end.
Definition checkSecretTree (j : json) : failures :=
  let cs := num j#"cipher_suite" in
  let d := j#"sender_data" in
  expect "sender data key" (got (expandSenderDataKey cs (raw d#"sender_data_secret") (raw d#"ciphertext")) (raw d#"key")) ++
  expect "sender data nonce" (got (expandSenderDataNonce cs (raw d#"sender_data_secret") (raw d#"ciphertext")) (raw d#"nonce")) ++
  with_ "deriveSecretTree" (deriveSecretTree cs (lenN (items j#"leaves")) (raw j#"encryption_secret")) (fun t =>
  flat_map (fun p =>
    with_ "handshake" (deriveRatchetRoot cs t (nodeIndexOf (fst p)) (str "handshake")) (fun s =>
      checkGenerations cs "handshake_key" "handshake_nonce" s (items (snd p))) ++
    with_ "application" (deriveRatchetRoot cs t (nodeIndexOf (fst p)) (str "application")) (fun s =>
      checkGenerations cs "application_key" "application_nonce" s (items (snd p))))
    (numbered 0 (items j#"leaves"))).

(** tree_test.go testTreeValidation *)
Definition checkTreeValidation (j : json) : failures :=
  let cs := num j#"cipher_suite" in
  with_ "unmarshal" (unmarshal getRatchetTree (raw j#"tree")) (fun t =>
  flat_map (fun p => with_ "resolve" (resolve t (fst p)) (fun l => expect "resolve" (listN_eqb l (map num (items (snd p))))))
    (numbered 0 (items j#"resolutions")) ++
  flat_map (fun p => expect "tree hash" (got (computeTreeHash cs t (fst p) []) (raw (snd p))))
    (numbered 0 (items j#"tree_hashes")) ++
  expect "parent hashes" (holds (verifyParentHashes cs t)) ++
  flat_map (fun p => match snd p, leafIndexOf (fst p) with
                     | Some (NLeaf l), Some li => expect "leaf signature" (holds (leafNodeVerifySignature cs (raw j#"group_id") li l))
                     | Some (NLeaf _), None => ["leafIndex"%string]
                     | _, _ => []
                     end) (numbered 0 t)).

(** tree_test.go testTreeKEM; the first part compares with the public key of the
    node the key pair derived from the path secret *)
Definition checkTreeKEM (j : json) : failures :=
  let cs := num j#"cipher_suite" in
  if negb (supported cs) then [] else
  with_ "unmarshal" (unmarshal getRatchetTree (raw j#"ratchet_tree")) (fun t =>
  flat_map (fun leaf =>
    flat_map (fun ps =>
      match getN t (num ps#"node") with
      | Ok (Some n) => with_ "path secret" (nodePrivFromPathSecret cs (raw ps#"path_secret") (node_encryptionKey n)) (fun _ => [])
      | _ => ["node"%string]
      end) (items leaf#"path_secrets")) (items j#"leaves_private") ++
  flat_map (fun u =>
    with_ "unmarshal path" (unmarshal getUpdatePath (raw u#"update_path")) (fun up =>
    with_ "mergeUpdatePath" (mergeUpdatePath cs t (num u#"sender") up) (fun t' =>
    expect "tree_hash_after" (got (computeRootTreeHash cs t') (raw u#"tree_hash_after"))))) (items j#"update_paths")).

(** tree_test.go testTreeOperations *)
Definition checkTreeOperations (j : json) : failures :=
  let cs := num j#"cipher_suite" in
  let sender := num j#"proposal_sender" in
  with_ "unmarshal" (unmarshal getRatchetTree (raw j#"tree_before")) (fun t =>
  expect "tree_hash_before" (got (computeRootTreeHash cs t) (raw j#"tree_hash_before")) ++
  with_ "unmarshal proposal" (unmarshal getProposal (raw j#"proposal")) (fun p =>
  (match p with
   | PAdd kp => with_ "keyPackage.verify" (keyPackageVerify kp (mkGroupContext (kp_version kp) (kp_cipherSuite kp) [] 0 [] [] [])) (fun _ => [])
   | PUpdate l =>
     with_ "supportedCreds" (supportedCreds t) (fun creds =>
     with_ "keys" (treeKeys t) (fun keys =>
     with_ "leafNode.verify" (leafNodeVerify l (mkVerifyOptions cs [] sender creds (fst keys) (snd keys) noTime)) (fun _ => [])))
   | PRemove li => with_ "getLeaf" (getLeaf t li) (fun l => expect "blank" (match l with Some _ => true | None => false end))
   | _ => ["proposal type"%string]
   end) ++
  let (h, pt) := load t in
  with_ "apply" (applyH h pt [p] [sender]) (fun ht =>
  let t' := deref (fst ht) (snd ht) in
  expect "tree_after" (got (marshal putRatchetTree t') (raw j#"tree_after")) ++
  expect "tree_hash_after" (got (computeRootTreeHash cs t') (raw j#"tree_hash_after"))))).

(** group_test.go testWelcome.  The test passes nil for the PSK secret, which
    stands for zeros (key_schedule.go:74, 101). *)
Definition checkWelcome (j : json) : failures :=
  match fst (getMlsMessage (raw j#"welcome")), fst (getMlsMessage (raw j#"key_package")) with
  | Ok (MWelcome w), Ok (MKeyPackage kp) =>
    with_ "size" (extractSize (w_cipherSuite w)) (fun nh =>
    let noPSK := zeros nh in
    with_ "ref" (keyPackageRef kp) (fun ref =>
    with_ "decryptGroupSecrets" (decryptGroupSecrets w ref (raw j#"init_priv")) (fun s =>
    with_ "decryptGroupInfo" (decryptGroupInfo w (gs_joinerSecret s) noPSK) (fun gi =>
    expect "signature" (holds (groupInfoVerifySignature gi (raw j#"signer_pub"))) ++
    expect "confirmation tag" (holds (groupInfoVerifyConfirmationTag gi (gs_joinerSecret s) noPSK))))))
  | _, _ => ["unmarshal"%string]
  end.

(** group_test.go testMessageProtection *)
Definition bodyBytes (b : body) : res bytes :=
  match b with
  | BApplication data => Ok data
  | BProposal p => marshal putProposal p
  | BCommit c => marshal putCommit c
  end.
Definition checkPublic (j : json) (ctx : groupContext) (want : bytes) (m : publicMessage) : failures :=
  expect "signature" (holds (authContentVerifySignature (pubMsgAuthContent m) (raw j#"signature_pub") ctx)) ++
  expect "membership tag" (holds (verifyMembershipTag (raw j#"membership_key") ctx m)) ++
  expect "content" (got (bodyBytes (fc_body (pubm_content m))) want).
Definition checkProtectPub (j : json) (ctx : groupContext) (want pub : bytes) : failures :=
  let cs := gc_cipherSuite ctx in
  match unmarshal getMlsMessage pub with
  | Ok (MPublic m) =>
    checkPublic j ctx want m ++
    with_ "signPublicMessage" (signPublicMessage cs (raw j#"signature_priv") rnd (pubm_content m) ctx) (fun m' =>
    with_ "signMembershipTag" (signMembershipTag cs (raw j#"membership_key") ctx m') (fun m'' =>
    checkPublic j ctx want m''))
  | _ => ["unmarshal public"%string]
  end.
Definition decryptFor (j : json) (ctx : groupContext) (secret : ratchetSecret) (m : privateMessage) : res (senderData * privateMessageContent) :=
  let cs := gc_cipherSuite ctx in
  let! sd := decryptSenderData cs m (raw j#"sender_data_secret") in
  let! s := ratchetForward cs secret (N.to_nat (sd_generation sd)) in
  let! pc := decryptContent cs m s (sd_reuseGuard sd) in
  Ok (sd, pc).
Definition checkPrivate (j : json) (ctx : groupContext) (want : bytes) (m : privateMessage) (d : senderData * privateMessageContent) : failures :=
  expect "private signature" (holds (authContentVerifySignature (privMsgAuthContent m (fst d) (snd d)) (raw j#"signature_pub") ctx)) ++
  expect "private content" (got (bodyBytes (pmc_body (snd d))) want).
Definition checkProtectPriv (j : json) (ctx : groupContext) (want priv : bytes) : failures :=
  let cs := gc_cipherSuite ctx in
  match unmarshal getMlsMessage priv with
  | Ok (MPrivate m) =>
    with_ "deriveSecretTree" (deriveSecretTree cs 2 (raw j#"encryption_secret")) (fun st =>
    with_ "label" (ratchetLabelFromContentType (privm_contentType m)) (fun label =>
    with_ "deriveRatchetRoot" (deriveRatchetRoot cs st (nodeIndexOf 1) label) (fun secret =>
    with_ "decrypt" (decryptFor j ctx secret m) (fun d =>
    checkPrivate j ctx want m d ++
    let content := mkFramedContent (raw j#"group_id") (num j#"epoch") (SMember 1) [] (pmc_body (snd d)) in
    with_ "signPrivateMessageContent" (signPrivateMessageContent cs (raw j#"signature_priv") rnd content ctx) (fun pc =>
    with_ "encryptPrivateMessage"
      (encryptPrivateMessage cs secret (raw j#"sender_data_secret") content pc (mkSenderData 1 0 (firstn 4 rnd))) (fun m' =>
    with_ "decrypt own" (decryptFor j ctx secret m') (fun d' => checkPrivate j ctx want m' d')))))))
  | _ => ["unmarshal private"%string]
  end.
Definition checkMessageProtection (j : json) : failures :=
  let ctx := mkGroupContext 1 (num j#"cipher_suite") (raw j#"group_id") (num j#"epoch") (raw j#"tree_hash")
               (raw j#"confirmed_transcript_hash") [] in
  checkProtectPub j ctx (raw j#"proposal") (raw j#"proposal_pub") ++
  checkProtectPriv j ctx (raw j#"proposal") (raw j#"proposal_priv") ++
  checkProtectPub j ctx (raw j#"commit") (raw j#"commit_pub") ++
  checkProtectPriv j ctx (raw j#"commit") (raw j#"commit_priv") ++
  checkProtectPriv j ctx (raw j#"application") (raw j#"application_priv").

(** passive_client_test.go testPassiveClient.  The Go test does not compare the
    epoch authenticator after a commit; this does, except after a commit the
    test skips. *)
Definition lookupPSK (j : json) (id : preSharedKeyID) : option bytes :=
  match id with
  | PskExternal b _ =>
    match find (fun e => bytes_eqb (raw e#"psk_id") b) (items j#"external_psks") with
    | Some e => Some (raw e#"psk")
    | None => None
    end
  | _ => None
  end.
Fixpoint lookupAll (j : json) (l : list preSharedKeyID) : res (list bytes) :=
  match l with
  | [] => Ok []
  | id :: r => match lookupPSK j id with
               | Some p => let! ps := lookupAll j r in Ok (p :: ps)
               | None => Err "PSK not found"
               end
  end.
Definition pskOf (p : proposal) : list preSharedKeyID := match p with PPsk id => [id] | _ => [] end.
Definition handled (p : proposal) : bool :=
  match p with PAdd _ | PUpdate _ | PRemove _ | PPsk (PskExternal _ _) => true | _ => false end.
Definition checkKeyPairs (cs : N) (j : json) (kp : keyPackage) : failures :=
  let encryption name pub priv :=
    with_ name (encryptWithLabel cs pub (str "bar") [] (str "foo") rnd) (fun ct =>
    expect name (got (decryptWithLabel cs priv (str "bar") [] (fst ct) (snd ct)) (str "foo"))) in
  encryption "init key pair"%string (kp_initKey kp) (raw j#"init_priv") ++
  encryption "encryption key pair"%string (ln_encryptionKey (kp_leafNode kp)) (raw j#"encryption_priv") ++
  with_ "signature key pair" (signWithLabel cs (raw j#"signature_priv") rnd (str "bar") (str "foo")) (fun sig =>
  expect "signature key pair" (holds (verifyWithLabel cs (ln_signatureKey (kp_leafNode kp)) (str "bar") (str "foo") sig))).
Fixpoint processProposals (g : group) (l : list json) (k : group -> failures) : failures :=
  match l with
  | [] => k g
  | p :: r => let (g', m) := unmarshalAndProcessMessage g (raw p) noTime in with_ "proposal" m (fun _ => processProposals g' r k)
  end.
Definition authenticator (g : group) : res bytes := deriveSecret (gc_cipherSuite (gr_context g)) (gr_epochSecret g) secretLabelAuthentication.
Fixpoint followEpochs (j : json) (g : group) (l : list json) : failures :=
  match l with
  | [] => []
  | e :: r =>
    processProposals g (items e#"proposals") (fun g =>
    match unmarshal getMlsMessage (raw e#"commit") with
    | Ok (MPublic m) =>
      with_ "verifyPublicMessage" (verifyPublicMessage g m) (fun ac =>
      match fc_body (ac_content ac) with
      | BCommit c =>
        with_ "resolveProposals" (resolveProposals (c_proposals c) (sender_leafIndex (fc_sender (pubm_content m))) (gr_pending g)) (fun ps =>
        if forallb handled (map fst ps) then
          let ids := flat_map pskOf (map fst ps) in
          with_ "psks" (lookupAll j ids) (fun psks =>
          let (g', m) := processCommit g ac ids psks noTime in
          with_ "processCommit" m (fun _ =>
          expect "epoch_authenticator" (got (authenticator g') (raw e#"epoch_authenticator")) ++
          followEpochs j g' r))
        else ["skipped"%string])
      | _ => ["contentType"%string]
      end)
    | _ => ["unmarshal commit"%string]
    end)
  end.
Definition checkPassiveClient (j : json) : failures :=
  let cs := num j#"cipher_suite" in
  if negb (supported cs) then [] else
  with_ "UnmarshalWelcome" (unmarshalWelcome (raw j#"welcome")) (fun w =>
  expect "cipher suite" (w_cipherSuite w =? cs) ++
  with_ "UnmarshalKeyPackage" (unmarshalKeyPackage (raw j#"key_package")) (fun kp =>
  expect "cipher suite" (kp_cipherSuite kp =? cs) ++
  checkKeyPairs cs j kp ++
  with_ "ref" (keyPackageRef kp) (fun ref =>
  with_ "decryptGroupSecrets" (decryptGroupSecrets w ref (raw j#"init_priv")) (fun s =>
  expect "single psk" (verifySingleReinitOrBranchPSK s) ++
  with_ "psks" (lookupAll j (gs_psks s)) (fun psks =>
  let kpp := mkKeyPairPackage kp (raw j#"init_priv") (raw j#"encryption_priv") (raw j#"signature_priv") in
  let tree := match j#"ratchet_tree" with JBytes b => Some b | _ => None end in
  with_ "groupFromSecrets" (groupFromSecrets w kpp s tree psks noTime) (fun g =>
  expect "initial_epoch_authenticator" (got (authenticator g) (raw j#"initial_epoch_authenticator")) ++
  followEpochs j g (items j#"epochs"))))))).

(** group_test.go ExampleGroup, with suite [cs]: Alice creates a group, adds Bob,
    processes her own commit and sends a message; Bob joins and reads it. *)
Definition exampleRnd (i : N) : bytes := repeat (n2b (i + 1)) 32.
Definition exampleNow : gotime := unixTime 1750000000.
Definition exampleLater : gotime := unixTime 1750000060.
Definition examplePackage (cs : N) (name : string) (i : N) : res keyPairPackage :=
  generateKeyPairPackage cs (mkCredential 1 (str name) []) exampleNow exampleNow
    (exampleRnd i) (exampleRnd (i + 1)) (exampleRnd (i + 2)) (exampleRnd (i + 3)) (exampleRnd (i + 4)).
Definition checkExampleGroup (cs : N) : failures :=
  with_ "alice" (examplePackage cs "alice" 0) (fun alice =>
  with_ "bob" (examplePackage cs "bob" 10) (fun bob =>
  with_ "CreateGroup" (createGroup (str "group") alice (exampleRnd 20)) (fun a0 =>
  let (a1, m) := createWelcome a0 [kpp_public bob] (exampleRnd 21) (exampleRnd 22) [exampleRnd 23] (firstn 4 rnd) in
  with_ "CreateWelcome" m (fun wm =>
  let (a2, m) := unmarshalAndProcessMessage a1 (snd wm) exampleLater in
  with_ "commit" m (fun _ =>
  with_ "GroupFromWelcome" (groupFromWelcome (fst wm) bob exampleLater) (fun b0 =>
  with_ "CreateApplicationMessage" (createApplicationMessage a2 (str "hello") (exampleRnd 24) (firstn 4 rnd)) (fun app =>
  let (b1, m) := unmarshalAndProcessMessage b0 app exampleLater in
  with_ "message" m (fun data => expect "data" (match data with Some d => bytes_eqb d (str "hello") | None => false end))))))))).
End WithCrypto.
