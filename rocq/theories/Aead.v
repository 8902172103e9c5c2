(** AES-GCM (NIST SP 800-38D) and ChaCha20-Poly1305 (RFC 8439).  Used only to run
    the model on test vectors, like Sha2.v. *)
From Verif Require Export Sha2.

(** ** AES *)
Definition sbox (b : byte) : byte :=
  match b with
  | x00 => x63 | x01 => x7c | x02 => x77 | x03 => x7b | x04 => xf2 | x05 => x6b | x06 => x6f
  | x07 => xc5 | x08 => x30 | x09 => x01 | x0a => x67 | x0b => x2b | x0c => xfe | x0d => xd7
  | x0e => xab | x0f => x76 | x10 => xca | x11 => x82 | x12 => xc9 | x13 => x7d | x14 => xfa
  | x15 => x59 | x16 => x47 | x17 => xf0 | x18 => xad | x19 => xd4 | x1a => xa2 | x1b => xaf
  | x1c => x9c | x1d => xa4 | x1e => x72 | x1f => xc0 | x20 => xb7 | x21 => xfd | x22 => x93
  | x23 => x26 | x24 => x36 | x25 => x3f | x26 => xf7 | x27 => xcc | x28 => x34 | x29 => xa5
  | x2a => xe5 | x2b => xf1 | x2c => x71 | x2d => xd8 | x2e => x31 | x2f => x15 | x30 => x04
  | x31 => xc7 | x32 => x23 | x33 => xc3 | x34 => x18 | x35 => x96 | x36 => x05 | x37 => x9a
  | x38 => x07 | x39 => x12 | x3a => x80 | x3b => xe2 | x3c => xeb | x3d => x27 | x3e => xb2
  | x3f => x75 | x40 => x09 | x41 => x83 | x42 => x2c | x43 => x1a | x44 => x1b | x45 => x6e
  | x46 => x5a | x47 => xa0 | x48 => x52 | x49 => x3b | x4a => xd6 | x4b => xb3 | x4c => x29
  | x4d => xe3 | x4e => x2f | x4f => x84 | x50 => x53 | x51 => xd1 | x52 => x00 | x53 => xed
  | x54 => x20 | x55 => xfc | x56 => xb1 | x57 => x5b | x58 => x6a | x59 => xcb | x5a => xbe
  | x5b => x39 | x5c => x4a | x5d => x4c | x5e => x58 | x5f => xcf | x60 => xd0 | x61 => xef
  | x62 => xaa | x63 => xfb | x64 => x43 | x65 => x4d | x66 => x33 | x67 => x85 | x68 => x45
  | x69 => xf9 | x6a => x02 | x6b => x7f | x6c => x50 | x6d => x3c | x6e => x9f | x6f => xa8
  | x70 => x51 | x71 => xa3 | x72 => x40 | x73 => x8f | x74 => x92 | x75 => x9d | x76 => x38
  | x77 => xf5 | x78 => xbc | x79 => xb6 | x7a => xda | x7b => x21 | x7c => x10 | x7d => xff
  | x7e => xf3 | x7f => xd2 | x80 => xcd | x81 => x0c | x82 => x13 | x83 => xec | x84 => x5f
  | x85 => x97 | x86 => x44 | x87 => x17 | x88 => xc4 | x89 => xa7 | x8a => x7e | x8b => x3d
  | x8c => x64 | x8d => x5d | x8e => x19 | x8f => x73 | x90 => x60 | x91 => x81 | x92 => x4f
  | x93 => xdc | x94 => x22 | x95 => x2a | x96 => x90 | x97 => x88 | x98 => x46 | x99 => xee
  | x9a => xb8 | x9b => x14 | x9c => xde | x9d => x5e | x9e => x0b | x9f => xdb | xa0 => xe0
  | xa1 => x32 | xa2 => x3a | xa3 => x0a | xa4 => x49 | xa5 => x06 | xa6 => x24 | xa7 => x5c
  | xa8 => xc2 | xa9 => xd3 | xaa => xac | xab => x62 | xac => x91 | xad => x95 | xae => xe4
  | xaf => x79 | xb0 => xe7 | xb1 => xc8 | xb2 => x37 | xb3 => x6d | xb4 => x8d | xb5 => xd5
  | xb6 => x4e | xb7 => xa9 | xb8 => x6c | xb9 => x56 | xba => xf4 | xbb => xea | xbc => x65
  | xbd => x7a | xbe => xae | xbf => x08 | xc0 => xba | xc1 => x78 | xc2 => x25 | xc3 => x2e
  | xc4 => x1c | xc5 => xa6 | xc6 => xb4 | xc7 => xc6 | xc8 => xe8 | xc9 => xdd | xca => x74
  | xcb => x1f | xcc => x4b | xcd => xbd | xce => x8b | xcf => x8a | xd0 => x70 | xd1 => x3e
  | xd2 => xb5 | xd3 => x66 | xd4 => x48 | xd5 => x03 | xd6 => xf6 | xd7 => x0e | xd8 => x61
  | xd9 => x35 | xda => x57 | xdb => xb9 | xdc => x86 | xdd => xc1 | xde => x1d | xdf => x9e
  | xe0 => xe1 | xe1 => xf8 | xe2 => x98 | xe3 => x11 | xe4 => x69 | xe5 => xd9 | xe6 => x8e
  | xe7 => x94 | xe8 => x9b | xe9 => x1e | xea => x87 | xeb => xe9 | xec => xce | xed => x55
  | xee => x28 | xef => xdf | xf0 => x8c | xf1 => xa1 | xf2 => x89 | xf3 => x0d | xf4 => xbf
  | xf5 => xe6 | xf6 => x42 | xf7 => x68 | xf8 => x41 | xf9 => x99 | xfa => x2d | xfb => x0f
  | xfc => xb0 | xfd => x54 | xfe => xbb | xff => x16
  end.
Definition xtime (b : byte) : byte := let n := 2 * b2n b in n2b (if n <? 256 then n else N.lxor n 0x11b).

(** The words of the key schedule: [prev] are the last [nk] words, oldest
    first. *)
Fixpoint keyWords (n : nat) (nk i : nat) (rcon : byte) (prev : list bytes) : list bytes :=
  match n, prev with
  | S n', oldest :: rest =>
    let last := nth (nk - 1) prev [] in
    let t := if (i mod nk =? 0)%nat then
               match map sbox (skipn 1 last ++ firstn 1 last) with b :: r => xorByte b rcon :: r | [] => [] end
             else if (6 <? nk)%nat && (i mod nk =? 4)%nat then map sbox last else last in
    let w := xorBytes oldest t in
    w :: keyWords n' nk (S i) (if (i mod nk =? 0)%nat then xtime rcon else rcon) (rest ++ [w])
  | _, _ => []
  end.
Definition roundKeys (key : bytes) : list bytes :=
  let ws := parts 4 key in
  let nk := length ws in
  map (fun l => concat l) (parts 4 (ws ++ keyWords (4 * (nk + 7) - nk) nk nk x01 ws)).

Definition mixColumn (c : bytes) : bytes :=
  match c with
  | [a; b; c; d] =>
    let t := xorByte (xorByte a b) (xorByte c d) in
    [xorByte (xorByte a t) (xtime (xorByte a b)); xorByte (xorByte b t) (xtime (xorByte b c));
     xorByte (xorByte c t) (xtime (xorByte c d)); xorByte (xorByte d t) (xtime (xorByte d a))]
  | _ => c
  end.
Definition shiftRows (s : bytes) : bytes :=
  match s with
  | [a0; a1; a2; a3; b0; b1; b2; b3; c0; c1; c2; c3; d0; d1; d2; d3] =>
    [a0; b1; c2; d3; b0; c1; d2; a3; c0; d1; a2; b3; d0; a1; b2; c3]
  | _ => s
  end.
Fixpoint aesRounds (ks : list bytes) (s : bytes) : bytes :=
  match ks with
  | [] => s
  | [k] => xorBytes (shiftRows (map sbox s)) k
  | k :: ks' => aesRounds ks' (xorBytes (flat_map mixColumn (parts 4 (shiftRows (map sbox s)))) k)
  end.
Definition aesBlock (ks : list bytes) (b : bytes) : bytes :=
  match ks with [] => b | k :: ks' => aesRounds ks' (xorBytes b k) end.

(** ** GCM *)
Fixpoint gfMul (n : nat) (x z v : N) : N :=
  match n with
  | O => z
  | S n' =>
    let z' := if N.testbit x (N.of_nat n') then N.lxor z v else z in
    gfMul n' x z' (if N.testbit v 0 then N.lxor (N.shiftr v 1) (N.shiftl 0xe1 120) else N.shiftr v 1)
  end.
Definition padTo16 (b : bytes) : bytes := b ++ repeat x00 ((16 - length b mod 16) mod 16).
Definition ghash (h : N) (data : bytes) : N :=
  fold_left (fun y b => gfMul 128 (N.lxor y (ofBytes b)) 0 h) (parts 16 data) 0.
Fixpoint ctrStream (ks : list bytes) (nonce : bytes) (i : N) (blocks : list bytes) : bytes :=
  match blocks with
  | [] => []
  | b :: r => xorBytes b (aesBlock ks (nonce ++ toBytes 4 i)) ++ ctrStream ks nonce (i + 1) r
  end.
Definition gcmTag (ks : list bytes) (nonce aad ct : bytes) : bytes :=
  let h := ofBytes (aesBlock ks (repeat x00 16)) in
  xorBytes (toBytes 16 (ghash h (padTo16 aad ++ padTo16 ct ++ toBytes 8 (8 * lenN aad) ++ toBytes 8 (8 * lenN ct))))
           (aesBlock ks (nonce ++ toBytes 4 1)).
Definition gcmSeal (key nonce aad pt : bytes) : bytes :=
  let ks := roundKeys key in
  let ct := ctrStream ks nonce 2 (parts 16 pt) in ct ++ gcmTag ks nonce aad ct.
Definition splitTag (c : bytes) : option (bytes * bytes) :=
  if (length c <? 16)%nat then None else Some (firstn (length c - 16) c, skipn (length c - 16) c).
Definition gcmOpen (key nonce aad c : bytes) : option bytes :=
  match splitTag c with
  | None => None
  | Some (ct, tag) =>
    let ks := roundKeys key in
    if bytes_eqb tag (gcmTag ks nonce aad ct) then Some (ctrStream ks nonce 2 (parts 16 ct)) else None
  end.

(** ** ChaCha20-Poly1305 *)
Definition w32 (x : N) : N := N.land x 0xffffffff.
Definition rotl32 (n x : N) : N := N.lor (w32 (N.shiftl x n)) (N.shiftr x (32 - n)).
Definition quarter (a b c d : N) : N * N * N * N :=
  let a := w32 (a + b) in let d := rotl32 16 (N.lxor d a) in
  let c := w32 (c + d) in let b := rotl32 12 (N.lxor b c) in
  let a := w32 (a + b) in let d := rotl32 8 (N.lxor d a) in
  let c := w32 (c + d) in let b := rotl32 7 (N.lxor b c) in (a, b, c, d).
Definition doubleRound (s : list N) : list N :=
  match s with
  | [v0; v1; v2; v3; v4; v5; v6; v7; v8; v9; v10; v11; v12; v13; v14; v15] =>
    let '(v0, v4, v8, v12) := quarter v0 v4 v8 v12 in
    let '(v1, v5, v9, v13) := quarter v1 v5 v9 v13 in
    let '(v2, v6, v10, v14) := quarter v2 v6 v10 v14 in
    let '(v3, v7, v11, v15) := quarter v3 v7 v11 v15 in
    let '(v0, v5, v10, v15) := quarter v0 v5 v10 v15 in
    let '(v1, v6, v11, v12) := quarter v1 v6 v11 v12 in
    let '(v2, v7, v8, v13) := quarter v2 v7 v8 v13 in
    let '(v3, v4, v9, v14) := quarter v3 v4 v9 v14 in
    [v0; v1; v2; v3; v4; v5; v6; v7; v8; v9; v10; v11; v12; v13; v14; v15]
  | _ => s
  end.
Definition chachaBlock (key nonce : bytes) (i : N) : bytes :=
  let s := [0x61707865; 0x3320646e; 0x79622d32; 0x6b206574] ++ map ofBytesLE (parts 4 key) ++ [i] ++ map ofBytesLE (parts 4 nonce) in
  let s' := Nat.iter 10 doubleRound s in
  concat (map (fun p => toBytesLE 4 (w32 (fst p + snd p))) (combine s s')).
Fixpoint chachaStream (key nonce : bytes) (i : N) (blocks : list bytes) : bytes :=
  match blocks with
  | [] => []
  | b :: r => xorBytes b (chachaBlock key nonce i) ++ chachaStream key nonce (i + 1) r
  end.
Definition poly1305 (key m : bytes) : bytes :=
  let r := N.land (ofBytesLE (firstn 16 key)) 0x0ffffffc0ffffffc0ffffffc0fffffff in
  let s := ofBytesLE (skipn 16 key) in
  toBytesLE 16 (fold_left (fun a b => ((a + ofBytesLE (b ++ [x01])) * r) mod (2 ^ 130 - 5)) (parts 16 m) 0 + s).
Definition chachaTag (key nonce aad ct : bytes) : bytes :=
  poly1305 (firstn 32 (chachaBlock key nonce 0)) (padTo16 aad ++ padTo16 ct ++ toBytesLE 8 (lenN aad) ++ toBytesLE 8 (lenN ct)).
Definition chachaSeal (key nonce aad pt : bytes) : bytes :=
  let ct := chachaStream key nonce 1 (parts 64 pt) in ct ++ chachaTag key nonce aad ct.
Definition chachaOpen (key nonce aad c : bytes) : option bytes :=
  match splitTag c with
  | None => None
  | Some (ct, tag) => if bytes_eqb tag (chachaTag key nonce aad ct) then Some (chachaStream key nonce 1 (parts 64 ct)) else None
  end.

Definition realSeal (a : aeadAlg) : bytes -> bytes -> bytes -> bytes -> bytes :=
  match a with CHACHA20POLY1305 => chachaSeal | _ => gcmSeal end.
Definition realOpen (a : aeadAlg) : bytes -> bytes -> bytes -> bytes -> option bytes :=
  match a with CHACHA20POLY1305 => chachaOpen | _ => gcmOpen end.
