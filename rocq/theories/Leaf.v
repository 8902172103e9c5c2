(** Lifetimes, leaf nodes and key packages: signing and verification
    (tree.go:180-229, 368-458, key_package.go:94-247), and the parent hash and
    path secret helpers (tree.go:41-57, 489-513). *)
From Verif Require Export Crypto TreeMath.

(** ** Go time (package time, Go 1.24) *)

(** int64 wrap-around *)
Definition wrap64 (z : Z) : Z := ((z + 2^63) mod 2^64 - 2^63)%Z.

(** time.Time without monotonic reading: seconds since year 1 as int64, and
    nanoseconds 0..999999999.  (A monotonic reading only matters when both
    operands have one; times built from a lifetime have none.) *)
Record gotime := mkTime { t_sec : Z; t_nsec : Z }.

Definition unixToInternal : Z := 62135596800.
(** time.Unix(int64(u), 0) *)
Definition unixTime (u : N) : gotime := mkTime (wrap64 (wrap64 (Z.of_N u) + unixToInternal)) 0.
(** uint64(t.Unix()) *)
Definition timeUnix (t : gotime) : N := Z.to_N ((t_sec t - unixToInternal) mod 2^64).

Definition timeIsZero (t : gotime) : bool := (t_sec t =? 0)%Z && (t_nsec t =? 0)%Z.
Definition timeEqual (t u : gotime) : bool := (t_sec t =? t_sec u)%Z && (t_nsec t =? t_nsec u)%Z.
Definition timeBefore (t u : gotime) : bool :=
  (t_sec t <? t_sec u)%Z || ((t_sec t =? t_sec u)%Z && (t_nsec t <? t_nsec u)%Z).
Definition timeAfter (t u : gotime) : bool := timeBefore u t.

(** Time.addSec saturates *)
Definition addSec (s d : Z) : Z :=
  let sum := wrap64 (s + d) in
  if Bool.eqb (sum >? s)%Z (d >? 0)%Z then sum
  else if (d >? 0)%Z then (2^63 - 1)%Z else (- (2^63 - 1))%Z.
(** Time.Add *)
Definition timeAdd (t : gotime) (d : Z) : gotime :=
  let dsec := Z.quot d 1000000000 in
  let nsec := (t_nsec t + Z.rem d 1000000000)%Z in
  if (nsec >=? 1000000000)%Z then mkTime (addSec (t_sec t) (dsec + 1)) (nsec - 1000000000)
  else if (nsec <? 0)%Z then mkTime (addSec (t_sec t) (dsec - 1)) (nsec + 1000000000)
  else mkTime (addSec (t_sec t) dsec) nsec.
(** Time.Sub, a Duration in nanoseconds *)
Definition timeSub (t u : gotime) : Z :=
  let d := wrap64 (wrap64 (wrap64 (t_sec t - t_sec u) * 1000000000) + (t_nsec t - t_nsec u)) in
  if timeEqual (timeAdd u d) t then d
  else if timeBefore t u then (- 2^63)%Z else (2^63 - 1)%Z.

(** tree.go:181 maxLeafNodeLifetime = 3 * 30 * 24 * time.Hour *)
Definition maxLeafNodeLifetime : Z := 3 * 30 * 24 * 3600 * 1000000000.

(** tree.go:187-192 newLifetime *)
Definition newLifetime (notBefore notAfter : gotime) : lifetime :=
  mkLifetime (timeUnix notBefore) (timeUnix notAfter).

(** tree.go:217-227 lifetime.verify *)
Definition lifetimeVerify (lt : lifetime) (t : gotime) : bool :=
  let notBefore := unixTime (lt_notBefore lt) in
  let notAfter := unixTime (lt_notAfter lt) in
  let d := timeSub notAfter notBefore in
  if (d <=? 0)%Z || (d >? maxLeafNodeLifetime)%Z then false
  else timeAfter t notBefore && timeAfter notAfter t.

(** ** Leaf nodes *)

Definition memN (x : N) (l : list N) : bool := existsb (N.eqb x) l.
Definition memB (x : bytes) (l : list bytes) : bool := existsb (bytes_eqb x) l.

(** Result of a Go [if err != nil { return false }] *)
Definition falseOnErr (m : res bool) : res bool :=
  match m with Err _ => Ok false | r => r end.

Section WithCrypto.
Context {C : crypto}.

(** tree.go:368-384 leafNode.sign *)
Definition leafNodeSign (cs : N) (groupID : bytes) (li : N) (signerPriv rnd : bytes) (l : leafNode) : res leafNode :=
  let! tbs := putLeafNodeTBS l groupID li in
  let! sig := signWithLabel cs signerPriv rnd (str "LeafNodeTBS") tbs in
  Ok (mkLeafNode (ln_encryptionKey l) (ln_signatureKey l) (ln_credential l) (ln_capabilities l)
        (ln_source l) (ln_lifetime l) (ln_parentHash l) (ln_extensions l) sig).

(** tree.go:389-399 leafNode.verifySignature *)
Definition leafNodeVerifySignature (cs : N) (groupID : bytes) (li : N) (l : leafNode) : res bool :=
  match putLeafNodeTBS l groupID li with
  | Err _ => Ok false
  | Panic p => Panic p
  | Hang => Hang
  | Ok tbs => verifyWithLabel cs (ln_signatureKey l) (str "LeafNodeTBS") tbs (ln_signature l)
  end.

(** tree.go:450-458 leafNodeVerifyOptions; the maps are sets of keys, and
    [now] is the reading of the clock. *)
Record verifyOptions := mkVerifyOptions {
  vo_cipherSuite : N;
  vo_groupID : bytes;
  vo_leafIndex : N;
  vo_supportedCreds : list N;
  vo_signatureKeys : list bytes;
  vo_encryptionKeys : list bytes;
  vo_now : gotime }.

(** tree.go:405-448 leafNode.verify *)
Definition leafNodeVerify (l : leafNode) (o : verifyOptions) : res unit :=
  let! sigok := leafNodeVerifySignature (vo_cipherSuite o) (vo_groupID o) (vo_leafIndex o) l in
  let! _ := guard sigok "mls: leaf node signature verification failed" in
  let! _ := guard (memN (cred_type (ln_credential l)) (vo_supportedCreds o)) "mls: credential type not supported by all members" in
  let! _ := guard (match ln_lifetime l with
                   | None => true
                   | Some lt => timeIsZero (vo_now o) || lifetimeVerify lt (vo_now o)
                   end) "mls: lifetime verification failed" in
  let! _ := guard (forallb (fun e => memN (ext_type e) (caps_extensions (ln_capabilities l))) (ln_extensions l))
                  "mls: extension type not supported by that leaf node" in
  let! _ := guard (negb (memB (ln_signatureKey l) (vo_signatureKeys o))) "mls: duplicate signature key in ratchet tree" in
  guard (negb (memB (ln_encryptionKey l) (vo_encryptionKeys o))) "mls: duplicate encryption key in ratchet tree".

(** tree.go:41-57 computeParentHash, marshalParentHashInput *)
Definition computeParentHash (cs : N) (p : parentNode) (originalSiblingTreeHash : bytes) : res bytes :=
  let! raw := putParentHashInput (pn_encryptionKey p) (pn_parentHash p) originalSiblingTreeHash in
  hashSum cs raw.

(** tree.go:489-495 decryptPathSecret *)
Definition decryptPathSecret (cs : N) (nodePriv : bytes) (ctx : groupContext) (c : hpkeCiphertext) : res bytes :=
  let! rawCtx := putGroupContext ctx in
  decryptWithLabel cs nodePriv (str "UpdatePathNode") rawCtx (hc_kemOutput c) (hc_ciphertext c).

(** tree.go:497-513 nodePrivFromPathSecret *)
Definition nodePrivFromPathSecret (cs : N) (pathSecret nodePub : bytes) : res bytes :=
  let! nodeSecret := deriveSecret cs pathSecret (str "node") in
  let! (pub, priv) := deriveEncryptionKeyPair cs nodeSecret in
  if bytes_eqb pub nodePub then Ok priv else Err "mls: node public key mismatch".

(** ** Key packages *)

(** key_package.go:94-109 KeyPackage.sign *)
Definition keyPackageSign (signerPriv rnd : bytes) (k : keyPackage) : res keyPackage :=
  let! tbs := putKeyPackageTBS k in
  let! sig := signWithLabel (kp_cipherSuite k) signerPriv rnd (str "KeyPackageTBS") tbs in
  Ok (mkKeyPackage (kp_version k) (kp_cipherSuite k) (kp_initKey k) (kp_leafNode k) (kp_extensions k) sig).

(** key_package.go:111-120 KeyPackage.verifySignature *)
Definition keyPackageVerifySignature (k : keyPackage) : res bool :=
  match putKeyPackageTBS k with
  | Err _ => Ok false
  | Panic p => Panic p
  | Hang => Hang
  | Ok tbs => verifyWithLabel (kp_cipherSuite k) (ln_signatureKey (kp_leafNode k)) (str "KeyPackageTBS") tbs (kp_signature k)
  end.

(** tree.go:59-67 leafNodeSource values *)
Definition leafNodeSourceKeyPackage : N := 1.
Definition leafNodeSourceUpdate : N := 2.
Definition leafNodeSourceCommit : N := 3.

(** key_package.go:123-140 KeyPackage.verify *)
Definition keyPackageVerify (k : keyPackage) (ctx : groupContext) : res unit :=
  let! _ := guard (kp_version k =? gc_version ctx) "mls: key package version doesn't match group context" in
  let! _ := guard (kp_cipherSuite k =? gc_cipherSuite ctx) "mls: cipher suite doesn't match group context" in
  let! _ := guard (ln_source (kp_leafNode k) =? leafNodeSourceKeyPackage) "mls: key package contains a leaf node with an invalid source" in
  let! sigok := keyPackageVerifySignature k in
  let! _ := guard sigok "mls: invalid key package signature" in
  guard (negb (bytes_eqb (ln_encryptionKey (kp_leafNode k)) (kp_initKey k))) "mls: key package encryption key and init key are identical".

(** key_package.go:143-157 KeyPackage.GenerateRef *)
Definition keyPackageRef (k : keyPackage) : res bytes :=
  let! raw := putKeyPackage k in
  refHash (kp_cipherSuite k) (str "MLS 1.0 KeyPackage Reference") raw.

(** key_package.go:167-178 PrivateKeyPackage, KeyPairPackage *)
Record keyPairPackage := mkKeyPairPackage {
  kpp_public : keyPackage;
  kpp_initKey : bytes;
  kpp_encryptionKey : bytes;
  kpp_signatureKey : bytes }.

(** key_package.go:181-235 GenerateKeyPairPackage: [t0] and [t1] are the two
    readings of the clock, [rnd*] the random bytes drawn by key generation and
    by the signatures. *)
Definition generateKeyPairPackage (cs : N) (cred : credential) (t0 t1 : gotime)
    (rndInit rndEnc rndSig rndLeaf rndPkg : bytes) : res keyPairPackage :=
  let! (initPub, initPriv) := generateEncryptionKeyPair cs rndInit in
  let! (encPub, encPriv) := generateEncryptionKeyPair cs rndEnc in
  let! (sigPub, sigPriv) := generateSignatureKeyPair cs rndSig in
  let leaf := mkLeafNode encPub sigPub cred
                (mkCapabilities [1] [cs] [2] [1; 2; 3] [1])
                leafNodeSourceKeyPackage
                (Some (newLifetime t0 (timeAdd t1 (30 * 24 * 3600 * 1000000000)))) [] [] [] in
  let! leaf' := leafNodeSign cs [] 0 sigPriv rndLeaf leaf in
  let! pkg := keyPackageSign sigPriv rndPkg (mkKeyPackage 1 cs initPub leaf' [] []) in
  Ok (mkKeyPairPackage pkg initPriv encPriv sigPriv).

End WithCrypto.
