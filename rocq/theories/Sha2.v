(** SHA-2, HMAC (RFC 2104) and HKDF (RFC 5869), as functions on byte lists.

    The theorems do not depend on this file: it is used only to run the model on
    the test vectors of /repo/testdata (see RealCrypto.v and Vectors.v). *)
From Verif Require Export Crypto.

(** Numbers and bytes *)
Definition ofBytes (b : bytes) : N := fold_left (fun acc x => 256 * acc + b2n x) b 0.
Definition ofBytesLE (b : bytes) : N := fold_right (fun x acc => b2n x + 256 * acc) 0 b.
Fixpoint toBytesLE (k : nat) (n : N) : bytes :=
  match k with O => [] | S k' => n2b (N.land n 255) :: toBytesLE k' (N.shiftr n 8) end.
Definition toBytes (k : nat) (n : N) : bytes := rev (toBytesLE k n).
Definition xorByte (a b : byte) : byte := n2b (N.lxor (b2n a) (b2n b)).
Definition xorBytes (a b : bytes) : bytes := map (fun p => xorByte (fst p) (snd p)) (combine a b).

(** Parts of [n] elements, the last one possibly shorter *)
Fixpoint partsFuel {A} (fuel n : nat) (l : list A) : list (list A) :=
  match fuel, l with
  | S fuel', _ :: _ => firstn n l :: partsFuel fuel' n (skipn n l)
  | _, _ => []
  end.
Definition parts {A} (n : nat) (l : list A) : list (list A) := partsFuel (length l) n l.

(** Words of [w] bits *)
Record shaParams := mkShaParams {
  sp_bits : N;
  sp_bytes : nat;
  sp_K : list N;
  sp_S0 : N * N * N;
  sp_S1 : N * N * N;
  sp_s0 : N * N * N;
  sp_s1 : N * N * N
}.
Section Sha.
Variable P : shaParams.
Definition word (x : N) : N := N.land x (N.ones (sp_bits P)).
Definition rotr (n x : N) : N := N.lor (N.shiftr x n) (word (N.shiftl x (sp_bits P - n))).
Definition bigSigma (r : N * N * N) (x : N) : N := let '(a, b, c) := r in N.lxor (rotr a x) (N.lxor (rotr b x) (rotr c x)).
Definition smallSigma (r : N * N * N) (x : N) : N := let '(a, b, c) := r in N.lxor (rotr a x) (N.lxor (rotr b x) (N.shiftr x c)).

Definition shaState : Type := N * N * N * N * N * N * N * N.
Definition shaRound (s : shaState) (k w : N) : shaState :=
  let '(a, b, c, d, e, f, g, h) := s in
  let t1 := word (h + bigSigma (sp_S1 P) e + N.lxor (N.land e f) (N.land (N.lxor e (N.ones (sp_bits P))) g) + k + w) in
  let t2 := bigSigma (sp_S0 P) a + N.lxor (N.land a b) (N.lxor (N.land a c) (N.land b c)) in
  (word (t1 + t2), a, b, c, word (d + t1), e, f, g).
(** [win] are the next sixteen words of the message schedule. *)
Fixpoint shaRounds (ks win : list N) (s : shaState) : shaState :=
  match ks, win with
  | k :: ks', w :: win' =>
    let next := word (smallSigma (sp_s1 P) (nth 13 win' 0) + nth 8 win' 0 + smallSigma (sp_s0 P) (nth 0 win' 0) + w) in
    shaRounds ks' (win' ++ [next]) (shaRound s k w)
  | _, _ => s
  end.
Definition shaBlock (s : shaState) (block : bytes) : shaState :=
  let '(a, b, c, d, e, f, g, h) := s in
  let '(a', b', c', d', e', f', g', h') := shaRounds (sp_K P) (map ofBytes (parts (sp_bytes P) block)) s in
  (word (a + a'), word (b + b'), word (c + c'), word (d + d'), word (e + e'), word (f + f'), word (g + g'), word (h + h')).
Definition shaPad (m : bytes) : bytes :=
  let b := (16 * sp_bytes P)%nat in
  let l := (length m + 1 + 2 * sp_bytes P)%nat in
  let z := ((b - l mod b) mod b)%nat in
  m ++ x80 :: repeat x00 z ++ toBytes (2 * sp_bytes P) (8 * lenN m).
Definition sha (init : shaState) (size : nat) (m : bytes) : bytes :=
  let '(a, b, c, d, e, f, g, h) := fold_left shaBlock (parts (16 * sp_bytes P) (shaPad m)) init in
  firstn size (concat (map (toBytes (sp_bytes P)) [a; b; c; d; e; f; g; h])).
End Sha.

Definition sha256Params : shaParams := mkShaParams 32 4 [
    0x428a2f98; 0x71374491; 0xb5c0fbcf; 0xe9b5dba5; 0x3956c25b; 0x59f111f1; 0x923f82a4;
    0xab1c5ed5; 0xd807aa98; 0x12835b01; 0x243185be; 0x550c7dc3; 0x72be5d74; 0x80deb1fe;
    0x9bdc06a7; 0xc19bf174; 0xe49b69c1; 0xefbe4786; 0x0fc19dc6; 0x240ca1cc; 0x2de92c6f;
    0x4a7484aa; 0x5cb0a9dc; 0x76f988da; 0x983e5152; 0xa831c66d; 0xb00327c8; 0xbf597fc7;
    0xc6e00bf3; 0xd5a79147; 0x06ca6351; 0x14292967; 0x27b70a85; 0x2e1b2138; 0x4d2c6dfc;
    0x53380d13; 0x650a7354; 0x766a0abb; 0x81c2c92e; 0x92722c85; 0xa2bfe8a1; 0xa81a664b;
    0xc24b8b70; 0xc76c51a3; 0xd192e819; 0xd6990624; 0xf40e3585; 0x106aa070; 0x19a4c116;
    0x1e376c08; 0x2748774c; 0x34b0bcb5; 0x391c0cb3; 0x4ed8aa4a; 0x5b9cca4f; 0x682e6ff3;
    0x748f82ee; 0x78a5636f; 0x84c87814; 0x8cc70208; 0x90befffa; 0xa4506ceb; 0xbef9a3f7;
    0xc67178f2]
  (2, 13, 22) (6, 11, 25) (7, 18, 3) (17, 19, 10).
Definition sha512Params : shaParams := mkShaParams 64 8 [
    0x428a2f98d728ae22; 0x7137449123ef65cd; 0xb5c0fbcfec4d3b2f; 0xe9b5dba58189dbbc;
    0x3956c25bf348b538; 0x59f111f1b605d019; 0x923f82a4af194f9b; 0xab1c5ed5da6d8118;
    0xd807aa98a3030242; 0x12835b0145706fbe; 0x243185be4ee4b28c; 0x550c7dc3d5ffb4e2;
    0x72be5d74f27b896f; 0x80deb1fe3b1696b1; 0x9bdc06a725c71235; 0xc19bf174cf692694;
    0xe49b69c19ef14ad2; 0xefbe4786384f25e3; 0x0fc19dc68b8cd5b5; 0x240ca1cc77ac9c65;
    0x2de92c6f592b0275; 0x4a7484aa6ea6e483; 0x5cb0a9dcbd41fbd4; 0x76f988da831153b5;
    0x983e5152ee66dfab; 0xa831c66d2db43210; 0xb00327c898fb213f; 0xbf597fc7beef0ee4;
    0xc6e00bf33da88fc2; 0xd5a79147930aa725; 0x06ca6351e003826f; 0x142929670a0e6e70;
    0x27b70a8546d22ffc; 0x2e1b21385c26c926; 0x4d2c6dfc5ac42aed; 0x53380d139d95b3df;
    0x650a73548baf63de; 0x766a0abb3c77b2a8; 0x81c2c92e47edaee6; 0x92722c851482353b;
    0xa2bfe8a14cf10364; 0xa81a664bbc423001; 0xc24b8b70d0f89791; 0xc76c51a30654be30;
    0xd192e819d6ef5218; 0xd69906245565a910; 0xf40e35855771202a; 0x106aa07032bbd1b8;
    0x19a4c116b8d2d0c8; 0x1e376c085141ab53; 0x2748774cdf8eeb99; 0x34b0bcb5e19b48a8;
    0x391c0cb3c5c95a63; 0x4ed8aa4ae3418acb; 0x5b9cca4f7763e373; 0x682e6ff3d6b2b8a3;
    0x748f82ee5defb2fc; 0x78a5636f43172f60; 0x84c87814a1f0ab72; 0x8cc702081a6439ec;
    0x90befffa23631e28; 0xa4506cebde82bde9; 0xbef9a3f7b2c67915; 0xc67178f2e372532b;
    0xca273eceea26619c; 0xd186b8c721c0c207; 0xeada7dd6cde0eb1e; 0xf57d4f7fee6ed178;
    0x06f067aa72176fba; 0x0a637dc5a2c898a6; 0x113f9804bef90dae; 0x1b710b35131c471b;
    0x28db77f523047d84; 0x32caab7b40c72493; 0x3c9ebe0a15c9bebc; 0x431d67c49c100d4c;
    0x4cc5d4becb3e42b6; 0x597f299cfc657e2a; 0x5fcb6fab3ad6faec; 0x6c44198c4a475817]
  (28, 34, 39) (14, 18, 41) (1, 8, 7) (19, 61, 6).

Definition realHash (h : hashAlg) : bytes -> bytes :=
  match h with
  | SHA256 => sha sha256Params (0x6a09e667, 0xbb67ae85, 0x3c6ef372, 0xa54ff53a, 0x510e527f, 0x9b05688c, 0x1f83d9ab, 0x5be0cd19) 32
  | SHA384 => sha sha512Params (0xcbbb9d5dc1059ed8, 0x629a292a367cd507, 0x9159015a3070dd17, 0x152fecd8f70e5939, 0x67332667ffc00b31, 0x8eb44a8768581511, 0xdb0c2e0d64f98fa7, 0x47b5481dbefa4fa4) 48
  | SHA512 => sha sha512Params (0x6a09e667f3bcc908, 0xbb67ae8584caa73b, 0x3c6ef372fe94f82b, 0xa54ff53a5f1d36f1, 0x510e527fade682d1, 0x9b05688c2b3e6c1f, 0x1f83d9abfb41bd6b, 0x5be0cd19137e2179) 64
  end.
Definition blockSize (h : hashAlg) : nat := match h with SHA256 => 64 | _ => 128 end.

Definition realHmac (h : hashAlg) (key m : bytes) : bytes :=
  let k := if (blockSize h <? length key)%nat then realHash h key else key in
  let k' := k ++ repeat x00 (blockSize h - length k) in
  realHash h (map (xorByte x5c) k' ++ realHash h (map (xorByte x36) k' ++ m)).

(** HKDF *)
Definition realExtract (h : hashAlg) (secret salt : bytes) : bytes :=
  realHmac h (match salt with [] => repeat x00 (N.to_nat (hashSize h)) | _ => salt end) secret.
Fixpoint expandBlocks (h : hashAlg) (prk info last : bytes) (i : N) (n : nat) : bytes :=
  match n with
  | O => []
  | S n' => let t := realHmac h prk (last ++ info ++ [n2b i]) in t ++ expandBlocks h prk info t (i + 1) n'
  end.
Definition realExpand (h : hashAlg) (prk info : bytes) (n : N) : bytes :=
  firstn (N.to_nat n) (expandBlocks h prk info [] 1 (N.to_nat ((n + hashSize h - 1) / hashSize h))).
