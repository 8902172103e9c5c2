(** The cryptographic operations of RFC 9420, written down from the RFC as
    functions that cannot fail, over the primitives of a cipher suite. *)
From Verif Require Export SpecWire Crypto.

(** ** The cipher suites (section 17.1) *)
Definition suites : list (N * suiteDesc) :=
  [ (1, mkSuiteDesc SHA256 X25519 SHA256 AES128GCM Ed25519);         (* MLS_128_DHKEMX25519_AES128GCM_SHA256_Ed25519 *)
    (2, mkSuiteDesc SHA256 KP256 SHA256 AES128GCM EcdsaP256);        (* MLS_128_DHKEMP256_AES128GCM_SHA256_P256 *)
    (3, mkSuiteDesc SHA256 X25519 SHA256 CHACHA20POLY1305 Ed25519);  (* MLS_128_DHKEMX25519_CHACHA20POLY1305_SHA256_Ed25519 *)
    (4, mkSuiteDesc SHA512 X448 SHA512 AES256GCM Ed448);             (* MLS_256_DHKEMX448_AES256GCM_SHA512_Ed448 *)
    (5, mkSuiteDesc SHA512 KP521 SHA512 AES256GCM EcdsaP521);        (* MLS_256_DHKEMP521_AES256GCM_SHA512_P521 *)
    (6, mkSuiteDesc SHA512 X448 SHA512 CHACHA20POLY1305 Ed448);      (* MLS_256_DHKEMX448_CHACHA20POLY1305_SHA512_Ed448 *)
    (7, mkSuiteDesc SHA384 KP384 SHA384 AES256GCM EcdsaP384) ].      (* MLS_256_DHKEMP384_AES256GCM_SHA384_P384 *)
Definition suite (cs : N) : option suiteDesc := option_map snd (find (fun p => fst p =? cs) suites).

Definition known_suite (cs : N) : Prop := exists d, suite cs = Some d.

(** The hash, KDF and AEAD of a cipher suite *)
Definition hashOf (cs : N) : hashAlg := match suite cs with Some d => sd_hash d | None => SHA256 end.
Definition kdfOf (cs : N) : hashAlg := match suite cs with Some d => sd_kdf d | None => SHA256 end.
Definition aeadOf (cs : N) : aeadAlg := match suite cs with Some d => sd_aead d | None => AES128GCM end.
(** KDF.Nh, AEAD.Nk and AEAD.Nn *)
Definition secretSize (cs : N) : N := hashSize (kdfOf cs).
Definition keySize (cs : N) : N := aeadKeySize (aeadOf cs).
Definition nonceSize (cs : N) : N := aeadNonceSize (aeadOf cs).

Section WithCrypto.
Context {C : crypto}.

Definition Hash (cs : N) (m : bytes) : bytes := cr_hash C (hashOf cs) m.
Definition MAC (cs : N) (key m : bytes) : bytes := cr_hmac C (hashOf cs) key m.

(** ** Section 8 *)
Definition Extract (cs : N) (salt ikm : bytes) : bytes := cr_extract C (kdfOf cs) ikm salt.
Definition ExpandWithLabel (cs : N) (secret label context : bytes) (length : N) : bytes :=
  cr_expand C (kdfOf cs) secret (enc_kdfLabel length label context) length.
Definition DeriveSecret (cs : N) (secret label : bytes) : bytes :=
  ExpandWithLabel cs secret label [] (secretSize cs).

(** ** Section 5.1.2: the signature verifies.  Only well-formed keys and
    signatures do (RFC 8032, SEC 1). *)
Definition verifies (alg : sigAlg) (key message sig : bytes) : Prop :=
  cr_verify C alg key message sig = true /\
  match alg with
  | Ed25519 => lenN key = 32
  | Ed448 => lenN key = 57
  | EcdsaP256 | EcdsaP384 | EcdsaP521 => cr_ecdsaPubValid C alg key = true /\ cr_ecdsaSigParses C sig = true
  end.
Definition VerifyWithLabel (cs : N) (key label content sig : bytes) : Prop :=
  exists d, suite cs = Some d /\ verifies (sd_sig d) key (enc_labelled label content) sig.
Definition SignWithLabel (cs : N) (priv label content rnd sig : bytes) : Prop :=
  exists d, suite cs = Some d /\ cr_sign C (sd_sig d) priv rnd (enc_labelled label content) = Some sig.

(** ** Section 5.1.3 *)
Definition EncryptWithLabel (cs : N) (pub label context plaintext rnd kemOutput ciphertext : bytes) : Prop :=
  exists d, suite cs = Some d /\
    cr_hpkeSeal C (sd_kem d) (sd_kdf d) (sd_aead d) pub (enc_labelled label context) rnd plaintext = Some (kemOutput, ciphertext).
Definition DecryptWithLabel (cs : N) (priv label context kemOutput ciphertext plaintext : bytes) : Prop :=
  exists d, suite cs = Some d /\
    cr_hpkeOpen C (sd_kem d) (sd_kdf d) (sd_aead d) priv (enc_labelled label context) kemOutput ciphertext = Some plaintext.

(** ** Section 5.2 *)
Definition RefHash (cs : N) (label value : bytes) : bytes := Hash cs (enc_refHashInput label value).
Definition KeyPackageRef (k : keyPackage) : bytes :=
  RefHash (kp_cipherSuite k) (str "MLS 1.0 KeyPackage Reference") (enc_keyPackage k).
Definition ProposalRef (cs : N) (ac : authenticatedContent) : bytes :=
  RefHash cs (str "MLS 1.0 Proposal Reference") (enc_authenticatedContent ac).

(** ** AEAD *)
Definition sealed (cs : N) (key nonce aad plaintext : bytes) : bytes := cr_aeadSeal C (aeadOf cs) key nonce aad plaintext.
Definition opened (cs : N) (key nonce aad ciphertext : bytes) : option bytes := cr_aeadOpen C (aeadOf cs) key nonce aad ciphertext.

(** ** The key schedule (section 8) *)
Definition joiner_secret (ctx : groupContext) (initSecret commitSecret : bytes) : bytes :=
  ExpandWithLabel (gc_cipherSuite ctx) (Extract (gc_cipherSuite ctx) initSecret commitSecret)
    (str "joiner") (enc_groupContext ctx) (secretSize (gc_cipherSuite ctx)).
Definition welcome_secret (cs : N) (joinerSecret pskSecret : bytes) : bytes :=
  DeriveSecret cs (Extract cs joinerSecret pskSecret) (str "welcome").
Definition epoch_secret (ctx : groupContext) (joinerSecret pskSecret : bytes) : bytes :=
  ExpandWithLabel (gc_cipherSuite ctx) (Extract (gc_cipherSuite ctx) joinerSecret pskSecret)
    (str "epoch") (enc_groupContext ctx) (secretSize (gc_cipherSuite ctx)).
Definition confirmation_tag (ctx : groupContext) (epochSecret : bytes) : bytes :=
  MAC (gc_cipherSuite ctx) (DeriveSecret (gc_cipherSuite ctx) epochSecret (str "confirm")) (gc_confirmedTranscriptHash ctx).
(** Section 8.5 *)
Definition exporter (cs : N) (exporterSecret label context : bytes) (length : N) : bytes :=
  ExpandWithLabel cs (DeriveSecret cs exporterSecret label) (str "exported") (Hash cs context) length.

(** [n] zero bytes *)
Definition zeroes (n : N) : bytes := repeat (n2b 0) (N.to_nat n).

(** Section 8.4: from the PSK number [i] of [count] on *)
Fixpoint psk_secret_from (cs count i : N) (before : bytes) (l : list (preSharedKeyID * bytes)) : bytes :=
  match l with
  | [] => before
  | (id, psk) :: r =>
    let input := ExpandWithLabel cs (Extract cs (zeroes (secretSize cs)) psk) (str "derived psk") (enc_pskLabel id i count) (secretSize cs) in
    psk_secret_from cs count (i + 1) (Extract cs input before) r
  end.
Definition psk_secret (cs : N) (l : list (preSharedKeyID * bytes)) : bytes :=
  psk_secret_from cs (lenN l) 0 (zeroes (secretSize cs)) l.

(** Section 8.2 *)
Definition confirmed_transcript_hash (cs : N) (interim : bytes) (wireFormat : N) (c : framedContent) (sig : bytes) : bytes :=
  Hash cs (interim ++ enc_confirmedTranscriptHashInput wireFormat c sig).
Definition interim_transcript_hash (cs : N) (confirmed tag : bytes) : bytes := Hash cs (confirmed ++ vec tag).

(** ** The secret tree (section 9): the secret of the node at a path from the
    root ([false] is left), the secret of a ratchet at a generation, and its
    key and nonce *)
Definition tree_secret (cs : N) (encryptionSecret : bytes) (p : list bool) : bytes :=
  fold_left (fun s (right : bool) => ExpandWithLabel cs s (str "tree") (if right then str "right" else str "left") (secretSize cs))
    p encryptionSecret.
Definition DeriveTreeSecret (cs : N) (secret label : bytes) (generation length : N) : bytes :=
  ExpandWithLabel cs secret label (num 4 generation) length.
Fixpoint ratchet_secret (cs : N) (leafSecret : bytes) (application : bool) (generation : nat) : bytes :=
  match generation with
  | O => ExpandWithLabel cs leafSecret (if application then str "application" else str "handshake") [] (secretSize cs)
  | S g => DeriveTreeSecret cs (ratchet_secret cs leafSecret application g) (str "secret") (N.of_nat g) (secretSize cs)
  end.
Definition ratchet_key (cs : N) (secret : bytes) (generation : N) : bytes :=
  DeriveTreeSecret cs secret (str "key") generation (keySize cs).
Definition ratchet_nonce (cs : N) (secret : bytes) (generation : N) : bytes :=
  DeriveTreeSecret cs secret (str "nonce") generation (nonceSize cs).

(** ** Private messages (section 6.3) *)
(** The first bytes of a nonce xored with the reuse guard *)
Fixpoint xor_guard (nonce reuseGuard : bytes) : bytes :=
  match nonce, reuseGuard with
  | n :: nonce', g :: guard' => n2b (N.lxor (b2n n) (b2n g)) :: xor_guard nonce' guard'
  | _, _ => nonce
  end.
(** The sample of a ciphertext (section 6.3.2) *)
Definition sample (cs : N) (ciphertext : bytes) : bytes := firstn (N.to_nat (secretSize cs)) ciphertext.
Definition sender_data_key (cs : N) (senderDataSecret ciphertext : bytes) : bytes :=
  ExpandWithLabel cs senderDataSecret (str "key") (sample cs ciphertext) (keySize cs).
Definition sender_data_nonce (cs : N) (senderDataSecret ciphertext : bytes) : bytes :=
  ExpandWithLabel cs senderDataSecret (str "nonce") (sample cs ciphertext) (nonceSize cs).
Definition membership_tag (g : groupContext) (epochSecret : bytes) (c : framedContent) (a : authData) : bytes :=
  MAC (gc_cipherSuite g) (DeriveSecret (gc_cipherSuite g) epochSecret (str "membership")) (enc_authenticatedContentTBM 1 c g a).

(** The secret of the ratchet that protects the content of a message from the
    leaf at the path [p] *)
Definition content_secret (ctx : groupContext) (epochSecret : bytes) (p : list bool) (b : body) (generation : N) : bytes :=
  ratchet_secret (gc_cipherSuite ctx) (tree_secret (gc_cipherSuite ctx) (DeriveSecret (gc_cipherSuite ctx) epochSecret (str "encryption")) p)
    (match b with BApplication _ => true | _ => false end) (N.to_nat generation).
Definition content_key (ctx : groupContext) (epochSecret : bytes) (p : list bool) (b : body) (generation : N) : bytes :=
  ratchet_key (gc_cipherSuite ctx) (content_secret ctx epochSecret p b generation) generation.
Definition content_nonce (ctx : groupContext) (epochSecret : bytes) (p : list bool) (b : body) (generation : N) (reuseGuard : bytes) : bytes :=
  xor_guard (ratchet_nonce (gc_cipherSuite ctx) (content_secret ctx epochSecret p b generation) generation) reuseGuard.
Definition sender_data_secret (ctx : groupContext) (epochSecret : bytes) : bytes :=
  DeriveSecret (gc_cipherSuite ctx) epochSecret (str "sender data").
(** A private message protects the content [c] with signature and
    confirmation tag [a], sent from the leaf at the path [p], padded with
    [padding] zero bytes. *)
Record protects (ctx : groupContext) (epochSecret : bytes) (p : list bool) (sd : senderData) (c : framedContent) (a : authData) (padding : N)
    (m : privateMessage) : Prop := {
  pr_sender : fc_sender c = SMember (sd_leafIndex sd);
  pr_groupID : privm_groupID m = fc_groupID c;
  pr_epoch : privm_epoch m = fc_epoch c;
  pr_contentType : privm_contentType m = content_type (fc_body c);
  pr_authenticatedData : privm_authenticatedData m = fc_authenticatedData c;
  pr_content :
    opened (gc_cipherSuite ctx) (content_key ctx epochSecret p (fc_body c) (sd_generation sd))
      (content_nonce ctx epochSecret p (fc_body c) (sd_generation sd) (sd_reuseGuard sd))
      (enc_privateContentAAD (fc_groupID c) (fc_epoch c) (content_type (fc_body c)) (fc_authenticatedData c))
      (privm_ciphertext m) =
    Some (enc_privateMessageContent (mkPrivateMessageContent (fc_body c) a) ++ zeroes padding);
  pr_senderData :
    opened (gc_cipherSuite ctx) (sender_data_key (gc_cipherSuite ctx) (sender_data_secret ctx epochSecret) (privm_ciphertext m))
      (sender_data_nonce (gc_cipherSuite ctx) (sender_data_secret ctx epochSecret) (privm_ciphertext m))
      (enc_senderDataAAD (fc_groupID c) (fc_epoch c) (content_type (fc_body c)))
      (privm_encryptedSenderData m) =
    Some (enc_senderData sd) }.
(** The private message that a sender makes *)
Definition private_message (ctx : groupContext) (epochSecret : bytes) (p : list bool) (sd : senderData) (c : framedContent) (a : authData)
    (padding : N) : privateMessage :=
  let cs := gc_cipherSuite ctx in
  let ciphertext :=
    sealed cs (content_key ctx epochSecret p (fc_body c) (sd_generation sd))
      (content_nonce ctx epochSecret p (fc_body c) (sd_generation sd) (sd_reuseGuard sd))
      (enc_privateContentAAD (fc_groupID c) (fc_epoch c) (content_type (fc_body c)) (fc_authenticatedData c))
      (enc_privateMessageContent (mkPrivateMessageContent (fc_body c) a) ++ zeroes padding) in
  mkPrivateMessage (fc_groupID c) (fc_epoch c) (content_type (fc_body c)) (fc_authenticatedData c)
    (sealed cs (sender_data_key cs (sender_data_secret ctx epochSecret) ciphertext)
       (sender_data_nonce cs (sender_data_secret ctx epochSecret) ciphertext)
       (enc_senderDataAAD (fc_groupID c) (fc_epoch c) (content_type (fc_body c))) (enc_senderData sd))
    ciphertext.

(** ** Welcomes (section 12.4.3.1) *)
Definition welcome_key (cs : N) (welcomeSecret : bytes) : bytes := ExpandWithLabel cs welcomeSecret (str "key") [] (keySize cs).
Definition welcome_nonce (cs : N) (welcomeSecret : bytes) : bytes := ExpandWithLabel cs welcomeSecret (str "nonce") [] (nonceSize cs).
Definition encrypted_group_info (cs : N) (joinerSecret pskSecret : bytes) (gi : groupInfo) : bytes :=
  let s := welcome_secret cs joinerSecret pskSecret in sealed cs (welcome_key cs s) (welcome_nonce cs s) [] (enc_groupInfo gi).

(** ** A new epoch (section 12.4.2) *)
Definition next_context (ctx : groupContext) (treeHash confirmed : bytes) : groupContext :=
  mkGroupContext (gc_version ctx) (gc_cipherSuite ctx) (gc_groupID ctx) ((gc_epoch ctx + 1) mod 2 ^ 64) treeHash confirmed (gc_extensions ctx).
End WithCrypto.

(** [r] is the prescribed value, unless the code refuses; it does not refuse
    when [small] holds. *)
Definition gives {A} (r : res A) (value : A) (small : Prop) : Prop :=
  (forall v, r = Ok v -> v = value) /\ (small -> r = Ok value).
(** The code can encode it, and what encodes it. *)
Definition can_encode (w : W) : Prop := exists e, w = Ok e /\ lenN e < 2 ^ 30.
(** Far from the largest length that can be encoded, 2^30 - 1 *)
Definition short (b : bytes) : Prop := lenN b < 2 ^ 28.
