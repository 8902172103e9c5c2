(** Cipher suites and the labelled cryptographic operations (ciphersuite.go).

    The cryptographic primitives (Go standard library, circl) are not modelled:
    they are the fields of the record [crypto], a parameter of everything
    below.  What the theorems need to know about them is in [crypto_ok].
    Random bytes read from crypto/rand are explicit arguments; failures of
    crypto/rand are not modelled. *)
From Verif Require Export Codec.

Inductive hashAlg := SHA256 | SHA384 | SHA512.
Inductive kemAlg := X25519 | X448 | KP256 | KP384 | KP521.
Inductive aeadAlg := AES128GCM | AES256GCM | CHACHA20POLY1305.
Inductive sigAlg := Ed25519 | Ed448 | EcdsaP256 | EcdsaP384 | EcdsaP521.

(** crypto.Hash.Size, also hpke.KDF.ExtractSize for HKDF with that hash *)
Definition hashSize (h : hashAlg) : N :=
  match h with SHA256 => 32 | SHA384 => 48 | SHA512 => 64 end.
(** circl v1.6.1 kem.Scheme.SeedSize *)
Definition seedSize (k : kemAlg) : N :=
  match k with X25519 => 32 | X448 => 56 | KP256 => 32 | KP384 => 48 | KP521 => 66 end.
(** hpke.AEAD.KeySize, NonceSize *)
Definition aeadKeySize (a : aeadAlg) : N :=
  match a with AES128GCM => 16 | AES256GCM => 32 | CHACHA20POLY1305 => 32 end.
Definition aeadNonceSize (a : aeadAlg) : N := 12.

(** The primitives. *)
Record crypto := {
  (* crypto.Hash: h.New().Write(m).Sum(nil) *)
  cr_hash : hashAlg -> bytes -> bytes;
  (* hmac.New(h, key).Write(m).Sum(nil) *)
  cr_hmac : hashAlg -> bytes -> bytes -> bytes;
  (* hpke.KDF.Extract(secret, salt) *)
  cr_extract : hashAlg -> bytes -> bytes -> bytes;
  (* hpke.KDF.Expand(prk, info, length) *)
  cr_expand : hashAlg -> bytes -> bytes -> N -> bytes;
  (* cipher.AEAD.Seal(nil, nonce, pt, aad) and Open; arguments: key nonce aad text *)
  cr_aeadSeal : aeadAlg -> bytes -> bytes -> bytes -> bytes -> bytes;
  cr_aeadOpen : aeadAlg -> bytes -> bytes -> bytes -> bytes -> option bytes;
  (* kem.Scheme.DeriveKeyPair on a seed of the right size: public, private *)
  cr_deriveKeyPair : kemAlg -> bytes -> bytes * bytes;
  (* kem.Scheme.GenerateKeyPair with the given random bytes *)
  cr_generateKeyPair : kemAlg -> bytes -> bytes * bytes;
  (* HPKE: public key, info, random bytes, plaintext |-> kemOutput, ciphertext *)
  cr_hpkeSeal : kemAlg -> hashAlg -> aeadAlg -> bytes -> bytes -> bytes -> bytes -> option (bytes * bytes);
  (* HPKE: private key, info, kemOutput, ciphertext *)
  cr_hpkeOpen : kemAlg -> hashAlg -> aeadAlg -> bytes -> bytes -> bytes -> bytes -> option bytes;
  (* signature: private key, random bytes, message *)
  cr_sign : sigAlg -> bytes -> bytes -> bytes -> option bytes;
  (* public key, message, signature *)
  cr_verify : sigAlg -> bytes -> bytes -> bytes -> bool;
  (* elliptic.Unmarshal(curve, pub) succeeds; the ASN.1 signature parses *)
  cr_ecdsaPubValid : sigAlg -> bytes -> bool;
  cr_ecdsaSigParses : bytes -> bool;
  (* signature key generation with the given random bytes: public, private *)
  cr_sigKeyPair : sigAlg -> bytes -> bytes * bytes
}.
Existing Class crypto.

(** ciphersuite.go:98-102 *)
Record suiteDesc := mkSuiteDesc {
  sd_hash : hashAlg;
  sd_kem : kemAlg;
  sd_kdf : hashAlg;
  sd_aead : aeadAlg;
  sd_sig : sigAlg
}.

(** ciphersuite.go:104-140 cipherSuiteDescriptions *)
Definition cipherSuiteDescriptions (cs : N) : option suiteDesc :=
  match cs with
  | 1 => Some (mkSuiteDesc SHA256 X25519 SHA256 AES128GCM Ed25519)
  | 2 => Some (mkSuiteDesc SHA256 KP256 SHA256 AES128GCM EcdsaP256)
  | 3 => Some (mkSuiteDesc SHA256 X25519 SHA256 CHACHA20POLY1305 Ed25519)
  | 4 => Some (mkSuiteDesc SHA512 X448 SHA512 AES256GCM Ed448)
  | 5 => Some (mkSuiteDesc SHA512 KP521 SHA512 AES256GCM EcdsaP521)
  | 6 => Some (mkSuiteDesc SHA512 X448 SHA512 CHACHA20POLY1305 Ed448)
  | 7 => Some (mkSuiteDesc SHA384 KP384 SHA384 AES256GCM EcdsaP384)
  | _ => None
  end.

(** ciphersuite.go:59-72 CipherSuite.Supported *)
Definition supported (cs : N) : bool :=
  match cipherSuiteDescriptions cs with
  | None => false
  | Some d => seedSize (sd_kem d) =? hashSize (sd_kdf d)
  end.

(** ciphersuite.go:74-96: hash(), hpke() and signatureScheme() panic on an
    unknown cipher suite. *)
Definition describe (cs : N) : res suiteDesc :=
  match cipherSuiteDescriptions cs with
  | Some d => Ok d
  | None => Panic "mls: invalid cipher suite"
  end.

(** [kdf.ExtractSize()] of the suite *)
Definition extractSize (cs : N) : res N := rmap (fun d => hashSize (sd_kdf d)) (describe cs).
Definition suiteKeySize (cs : N) : res N := rmap (fun d => aeadKeySize (sd_aead d)) (describe cs).
Definition suiteNonceSize (cs : N) : res N := rmap (fun d => aeadNonceSize (sd_aead d)) (describe cs).

(** [cs.hash().New(); h.Write(m); h.Sum(nil)] *)
Definition hashSum {C : crypto} (cs : N) (m : bytes) : res bytes :=
  let! d := describe cs in Ok (cr_hash C (sd_hash d) m).

(** [kdf.Extract(secret, salt)] *)
Definition extract {C : crypto} (cs : N) (secret salt : bytes) : res bytes :=
  let! d := describe cs in Ok (cr_extract C (sd_kdf d) secret salt).

(** ciphersuite.go:142-147 signMAC *)
Definition signMAC {C : crypto} (cs : N) (key message : bytes) : res bytes :=
  let! d := describe cs in Ok (cr_hmac C (sd_hash d) key message).

(** ciphersuite.go:149-151 verifyMAC *)
Definition verifyMAC {C : crypto} (cs : N) (key message tag : bytes) : res bool :=
  let! t := signMAC cs key message in Ok (bytes_eqb tag t).

(** ciphersuite.go:153-165 refHash *)
Definition putRefHashInput (label value : bytes) : W := writeOpaqueVec label +++ writeOpaqueVec value.
Definition refHash {C : crypto} (cs : N) (label value : bytes) : res bytes :=
  let! input := putRefHashInput label value in hashSum cs input.

(** ciphersuite.go:168, 297, 306: the prefix of all labels *)
Definition mlsLabel (label : bytes) : bytes := str "MLS 1.0 " ++ label.

(** ciphersuite.go:167-181 expandWithLabel; kdf.Expand panics when asked for
    more than 255 hash blocks. *)
Definition putKdfLabel (label context : bytes) (length : N) : W :=
  addUint16 length +++ writeOpaqueVec (mlsLabel label) +++ writeOpaqueVec context.
Definition expandWithLabel {C : crypto} (cs : N) (secret label context : bytes) (length : N) : res bytes :=
  let! kdfLabel := putKdfLabel label context length in
  let! d := describe cs in
  if 255 * hashSize (sd_kdf d) <? length then Panic "hkdf: entropy limit reached"
  else Ok (cr_expand C (sd_kdf d) secret kdfLabel length).

(** ciphersuite.go:183-186 deriveSecret *)
Definition deriveSecret {C : crypto} (cs : N) (secret label : bytes) : res bytes :=
  let! nh := extractSize cs in
  expandWithLabel cs secret label [] nh.

(** ciphersuite.go:296-303 marshalSignContent, 305-312 marshalEncryptContext *)
Definition putLabelled (label content : bytes) : W :=
  writeOpaqueVec (mlsLabel label) +++ writeOpaqueVec content.

(** ciphersuite.go:322-328, 356-364, 383-389: Sign *)
Definition sigSign {C : crypto} (alg : sigAlg) (signKey rnd message : bytes) : res bytes :=
  let raw := match cr_sign C alg signKey rnd message with
             | Some s => Ok s
             | None => Err "signing failed"
             end in
  match alg with
  | Ed25519 => if lenN signKey =? 32 then raw else Err "mls: invalid Ed25519 private key size"
  | Ed448 => if lenN signKey =? 57 then raw else Err "mls: invalid Ed448 private key size"
  | _ => raw
  end.

(** ciphersuite.go:330-335, 366-370, 391-396: Verify.  With an invalid point
    elliptic.Unmarshal returns nil coordinates, which ecdsa.VerifyASN1
    dereferences after having parsed the signature. *)
Definition sigVerify {C : crypto} (alg : sigAlg) (pub message sig : bytes) : res bool :=
  match alg with
  | Ed25519 => Ok ((lenN pub =? 32) && cr_verify C alg pub message sig)
  | Ed448 => Ok ((lenN pub =? 57) && cr_verify C alg pub message sig)
  | _ => if negb (cr_ecdsaSigParses C sig) then Ok false
         else if negb (cr_ecdsaPubValid C alg pub) then Panic "nil pointer dereference"
         else Ok (cr_verify C alg pub message sig)
  end.

(** ciphersuite.go:188-195 signWithLabel *)
Definition signWithLabel {C : crypto} (cs : N) (signKey rnd label content : bytes) : res bytes :=
  let! signContent := putLabelled label content in
  let! d := describe cs in
  sigSign (sd_sig d) signKey rnd signContent.

(** ciphersuite.go:197-204 verifyWithLabel *)
Definition verifyWithLabel {C : crypto} (cs : N) (verifKey label content signValue : bytes) : res bool :=
  match putLabelled label content with
  | Err _ => Ok false
  | Panic p => Panic p
  | Hang => Hang
  | Ok signContent =>
    let! d := describe cs in
    sigVerify (sd_sig d) verifKey signContent signValue
  end.

(** ciphersuite.go:206-231 encryptWithLabel *)
Definition encryptWithLabel {C : crypto} (cs : N) (publicKey label context plaintext rnd : bytes)
  : res (bytes * bytes) :=
  let! encryptContext := putLabelled label context in
  let! d := describe cs in
  match cr_hpkeSeal C (sd_kem d) (sd_kdf d) (sd_aead d) publicKey encryptContext rnd plaintext with
  | Some p => Ok p
  | None => Err "HPKE encryption failed"
  end.

(** ciphersuite.go:233-257 decryptWithLabel *)
Definition decryptWithLabel {C : crypto} (cs : N) (privateKey label context kemOutput ciphertext : bytes)
  : res bytes :=
  let! encryptContext := putLabelled label context in
  let! d := describe cs in
  match cr_hpkeOpen C (sd_kem d) (sd_kdf d) (sd_aead d) privateKey encryptContext kemOutput ciphertext with
  | Some p => Ok p
  | None => Err "HPKE decryption failed"
  end.

(** ciphersuite.go:259-277 generateEncryptionKeyPair *)
Definition generateEncryptionKeyPair {C : crypto} (cs : N) (rnd : bytes) : res (bytes * bytes) :=
  let! d := describe cs in Ok (cr_generateKeyPair C (sd_kem d) rnd).

(** ciphersuite.go:279-294 deriveEncryptionKeyPair: circl's DeriveKeyPair
    panics unless the seed has exactly the seed size. *)
Definition deriveEncryptionKeyPair {C : crypto} (cs : N) (seed : bytes) : res (bytes * bytes) :=
  let! d := describe cs in
  if lenN seed =? seedSize (sd_kem d) then Ok (cr_deriveKeyPair C (sd_kem d) seed)
  else Panic "kem: invalid seed size".

(** ciphersuite.go:337-343, 372-379, 398-404: signature key generation *)
Definition generateSignatureKeyPair {C : crypto} (cs : N) (rnd : bytes) : res (bytes * bytes) :=
  let! d := describe cs in Ok (cr_sigKeyPair C (sd_sig d) rnd).

(** [cipher, err := aead.New(key); cipher.Seal(nil, nonce, pt, aad)]: New
    fails on a key of the wrong size, Seal panics on a nonce of the wrong size
    (framing.go:604-609, 655-660; group.go:981-986, 1203-1208). *)
Definition aeadSeal {C : crypto} (cs : N) (key nonce aad pt : bytes) : res bytes :=
  let! d := describe cs in
  if negb (lenN key =? aeadKeySize (sd_aead d)) then Err "invalid key size"
  else if negb (lenN nonce =? aeadNonceSize (sd_aead d)) then Panic "incorrect nonce length"
  else Ok (cr_aeadSeal C (sd_aead d) key nonce aad pt).
Definition aeadOpen {C : crypto} (cs : N) (key nonce aad ct : bytes) : res bytes :=
  let! d := describe cs in
  if negb (lenN key =? aeadKeySize (sd_aead d)) then Err "invalid key size"
  else if negb (lenN nonce =? aeadNonceSize (sd_aead d)) then Panic "incorrect nonce length"
  else match cr_aeadOpen C (sd_aead d) key nonce aad ct with
       | Some pt => Ok pt
       | None => Err "message authentication failed"
       end.

(** ** What a correct implementation of the primitives guarantees *)

(** Ciphertexts for [pub] are opened with [priv]. *)
Definition hpke_pair (C : crypto) (kem : kemAlg) (pub priv : bytes) : Prop :=
  forall kdf aead info rnd pt, exists ko ct,
    cr_hpkeSeal C kem kdf aead pub info rnd pt = Some (ko, ct) /\
    cr_hpkeOpen C kem kdf aead priv info ko ct = Some pt.

(** Signatures made with [priv] verify under [pub]. *)
Definition sig_pair (C : crypto) (alg : sigAlg) (pub priv : bytes) : Prop :=
  forall rnd m, exists s,
    @sigSign C alg priv rnd m = Ok s /\ @sigVerify C alg pub m s = Ok true.

Record crypto_ok (C : crypto) : Prop := {
  ok_hash : forall h m, lenN (cr_hash C h m) = hashSize h;
  ok_hmac : forall h k m, lenN (cr_hmac C h k m) = hashSize h;
  ok_extract : forall h a b, lenN (cr_extract C h a b) = hashSize h;
  ok_expand : forall h k i n, lenN (cr_expand C h k i n) = n;
  ok_aead : forall a k n aad pt,
    lenN k = aeadKeySize a -> lenN n = aeadNonceSize a ->
    cr_aeadOpen C a k n aad (cr_aeadSeal C a k n aad pt) = Some pt;
  ok_aead_len : forall a k n aad pt, lenN (cr_aeadSeal C a k n aad pt) = lenN pt + 16;
  ok_derive : forall kem seed, lenN seed = seedSize kem ->
    hpke_pair C kem (fst (cr_deriveKeyPair C kem seed)) (snd (cr_deriveKeyPair C kem seed));
  ok_generate : forall kem rnd,
    hpke_pair C kem (fst (cr_generateKeyPair C kem rnd)) (snd (cr_generateKeyPair C kem rnd));
  ok_sigKey : forall alg rnd,
    sig_pair C alg (fst (cr_sigKeyPair C alg rnd)) (snd (cr_sigKeyPair C alg rnd))
}.
