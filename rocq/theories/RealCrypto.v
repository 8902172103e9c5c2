(** The primitives of the cipher suites: HPKE (RFC 9180, base mode) and an
    instance of [crypto] with the real algorithms, except X448 and Ed448.  Used
    only to run the model on test vectors. *)
From Verif Require Export Curves.

Definition curveOf (k : kemAlg) : curve := match k with KP384 => cP384 | KP521 => cP521 | _ => cP256 end.
Definition sigCurve (a : sigAlg) : curve := match a with EcdsaP384 => cP384 | EcdsaP521 => cP521 | _ => cP256 end.
Definition sigHash (a : sigAlg) : hashAlg := match a with EcdsaP384 => SHA384 | EcdsaP521 => SHA512 | _ => SHA256 end.
Definition kemHash (k : kemAlg) : hashAlg := match k with X25519 | KP256 => SHA256 | KP384 => SHA384 | _ => SHA512 end.
Definition kemID (k : kemAlg) : N := match k with KP256 => 0x10 | KP384 => 0x11 | KP521 => 0x12 | X25519 => 0x20 | X448 => 0x21 end.
Definition kdfID (h : hashAlg) : N := match h with SHA256 => 1 | SHA384 => 2 | SHA512 => 3 end.
Definition aeadID (a : aeadAlg) : N := match a with AES128GCM => 1 | AES256GCM => 2 | CHACHA20POLY1305 => 3 end.

Definition labeledExtract (h : hashAlg) (suite salt : bytes) (label : string) (ikm : bytes) : bytes :=
  realExtract h (str "HPKE-v1" ++ suite ++ str label ++ ikm) salt.
Definition labeledExpand (h : hashAlg) (suite prk : bytes) (label : string) (info : bytes) (n : N) : bytes :=
  realExpand h prk (toBytes 2 n ++ str "HPKE-v1" ++ suite ++ str label ++ info) n.
Definition kemSuite (k : kemAlg) : bytes := str "KEM" ++ toBytes 2 (kemID k).

(** ** DHKEM *)
Definition kemPublic (k : kemAlg) (priv : bytes) : bytes :=
  match k with X25519 => x25519 priv x25519Base | _ => wPublic (curveOf k) priv end.
Definition kemDH (k : kemAlg) (priv pub : bytes) : option bytes :=
  match k with
  | X25519 => if (length pub =? 32)%nat then Some (x25519 priv pub) else None
  | _ => wDH (curveOf k) priv pub
  end.
Fixpoint kemCandidate (k : kemAlg) (prk : bytes) (i : N) (fuel : nat) : bytes :=
  match fuel with
  | O => []
  | S fuel' =>
    let b := labeledExpand (kemHash k) (kemSuite k) prk "candidate" [n2b i] (N.of_nat (cv_size (curveOf k))) in
    let b := match k, b with KP521, x :: r => n2b (N.land (b2n x) 1) :: r | _, _ => b end in
    let n := ofBytes b in
    if (0 <? n) && (n <? cv_n (curveOf k)) then b else kemCandidate k prk (i + 1) fuel'
  end.
Definition kemDerive (k : kemAlg) (seed : bytes) : bytes * bytes :=
  let prk := labeledExtract (kemHash k) (kemSuite k) [] "dkp_prk" seed in
  let priv := match k with
              | X25519 => labeledExpand SHA256 (kemSuite k) prk "sk" [] 32
              | _ => kemCandidate k prk 0 256
              end in
  (kemPublic k priv, priv).
Definition kemShared (k : kemAlg) (dh kemOutput pub : bytes) : bytes :=
  let h := kemHash k in
  labeledExpand h (kemSuite k) (labeledExtract h (kemSuite k) [] "eae_prk" dh) "shared_secret" (kemOutput ++ pub) (hashSize h).

(** ** HPKE *)
Definition hpkeKeys (k : kemAlg) (h : hashAlg) (a : aeadAlg) (shared info : bytes) : bytes * bytes :=
  let suite := str "HPKE" ++ toBytes 2 (kemID k) ++ toBytes 2 (kdfID h) ++ toBytes 2 (aeadID a) in
  let context := x00 :: labeledExtract h suite [] "psk_id_hash" [] ++ labeledExtract h suite [] "info_hash" info in
  let secret := labeledExtract h suite shared "secret" [] in
  (labeledExpand h suite secret "key" context (aeadKeySize a), labeledExpand h suite secret "base_nonce" context 12).
Definition realHpkeSeal (k : kemAlg) (h : hashAlg) (a : aeadAlg) (pub info rnd pt : bytes) : option (bytes * bytes) :=
  let (kemOutput, ephemeral) := kemDerive k rnd in
  match kemDH k ephemeral pub with
  | None => None
  | Some dh => let (key, nonce) := hpkeKeys k h a (kemShared k dh kemOutput pub) info in Some (kemOutput, realSeal a key nonce [] pt)
  end.
Definition realHpkeOpen (k : kemAlg) (h : hashAlg) (a : aeadAlg) (priv info kemOutput ct : bytes) : option bytes :=
  match kemDH k priv kemOutput with
  | None => None
  | Some dh => let (key, nonce) := hpkeKeys k h a (kemShared k dh kemOutput (kemPublic k priv)) info in realOpen a key nonce [] ct
  end.

Definition real : crypto := {|
  cr_hash := realHash;
  cr_hmac := realHmac;
  cr_extract := realExtract;
  cr_expand := realExpand;
  cr_aeadSeal := realSeal;
  cr_aeadOpen := realOpen;
  cr_deriveKeyPair := kemDerive;
  cr_generateKeyPair := kemDerive;
  cr_hpkeSeal := realHpkeSeal;
  cr_hpkeOpen := realHpkeOpen;
  cr_sign alg priv rnd m :=
    match alg with
    | Ed25519 => Some (edSign priv m)
    | Ed448 => None
    | _ => Some (ecdsaSign (sigCurve alg) priv rnd (realHash (sigHash alg) m))
    end;
  cr_verify alg pub m sig :=
    match alg with
    | Ed25519 => edVerify pub m sig
    | Ed448 => false
    | _ => ecdsaVerify (sigCurve alg) pub (realHash (sigHash alg) m) sig
    end;
  cr_ecdsaPubValid alg pub := match wDecode (sigCurve alg) pub with Some _ => true | None => false end;
  cr_ecdsaSigParses sig := match derSignature sig with Some _ => true | None => false end;
  cr_sigKeyPair alg rnd :=
    match alg with
    | Ed25519 => (edPublic rnd, rnd)
    | Ed448 => ([], [])
    | _ => (wPublic (sigCurve alg) rnd, rnd)
    end
|}.
