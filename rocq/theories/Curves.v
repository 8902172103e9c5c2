(** X25519 (RFC 7748), Ed25519 (RFC 8032) and ECDH and ECDSA on the NIST curves.
    Used only to run the model on test vectors, like Sha2.v. *)
From Verif Require Export Aead.

(** ** Modular arithmetic *)
Section Field.
Variable p : N.
Variable red : N -> N.
Definition fmul (a b : N) : N := red (a * b).
Definition fadd (a b : N) : N := let s := a + b in if p <=? s then s - p else s.
Definition fsub (a b : N) : N := if b <=? a then a - b else a + p - b.
Fixpoint fpow (a : N) (e : positive) : N :=
  match e with
  | xH => a
  | xO e' => let r := fpow a e' in fmul r r
  | xI e' => let r := fpow a e' in fmul a (fmul r r)
  end.
Definition finv (a : N) : N := match p - 2 with Npos e => fpow a e | 0 => 0 end.
End Field.

Definition p25519 : N := 0x7fffffffffffffffffffffffffffffffffffffffffffffffffffffffffffffed.
Definition red25519 (x : N) : N :=
  let y := N.land x (N.ones 255) + 19 * N.shiftr x 255 in
  let z := N.land y (N.ones 255) + 19 * N.shiftr y 255 in
  if p25519 <=? z then z - p25519 else z.
Notation "a *f b" := (fmul red25519 a b) (at level 40, left associativity).
Notation "a +f b" := (fadd p25519 a b) (at level 50, left associativity).
Notation "a -f b" := (fsub p25519 a b) (at level 50, left associativity).

(** ** X25519 *)
Definition ladderStep (u x2 z2 x3 z3 : N) : N * N * N * N :=
  let a := x2 +f z2 in let aa := a *f a in
  let b := x2 -f z2 in let bb := b *f b in
  let e := aa -f bb in
  let da := (x3 -f z3) *f a in
  let cb := (x3 +f z3) *f b in
  let s := da +f cb in let d := da -f cb in
  (aa *f bb, e *f (aa +f 121665 *f e), s *f s, u *f (d *f d)).
Fixpoint ladder (n : nat) (k u : N) (s : N * N * N * N) : N * N * N * N :=
  match n with
  | O => s
  | S n' =>
    let '(x2, z2, x3, z3) := s in
    ladder n' k u
      (if N.testbit k (N.of_nat n')
       then let '(a, b, c, d) := ladderStep u x3 z3 x2 z2 in (c, d, a, b)
       else ladderStep u x2 z2 x3 z3)
  end.
Definition clamp (k : N) : N := N.lor (N.land k (N.ones 254 - 7)) (2 ^ 254).
Definition x25519 (priv pub : bytes) : bytes :=
  let u := red25519 (N.land (ofBytesLE pub) (N.ones 255)) in
  let '(x2, z2, _, _) := ladder 255 (clamp (ofBytesLE priv)) u (1, 0, u, 1) in
  toBytesLE 32 (x2 *f finv p25519 red25519 z2).
Definition x25519Base : bytes := toBytesLE 32 9.

(** ** Ed25519, in extended coordinates *)
Definition edD : N := 0x52036cee2b6ffe738cc740797779e89800700a4d4141d8ab75eb4dca135978a3.
Definition edL : N := 0x1000000000000000000000000000000014def9dea2f79cd65812631a5cf5d3ed.
Definition sqrtM1 : N := 0x2b8324804fc1df0b2b4d00993dfbd7a72f431806ad2fe478c4ee1b274a0ea0b0.
Definition edPoint : Type := N * N * N * N.
Definition edZero : edPoint := (0, 1, 1, 0).
Definition edBase : edPoint := Eval vm_compute in
  let x := 0x216936d3cd6e53fec0a4e231fdd6dc5c692cc7609525a7b2c9562d608f25d51a in let y := 0x6666666666666666666666666666666666666666666666666666666666666658 in (x, y, 1, x *f y).
Definition edAdd (P Q : edPoint) : edPoint :=
  let '(x1, y1, z1, t1) := P in let '(x2, y2, z2, t2) := Q in
  let a := (y1 -f x1) *f (y2 -f x2) in
  let b := (y1 +f x1) *f (y2 +f x2) in
  let c := (t1 *f (edD +f edD)) *f t2 in
  let d := (z1 +f z1) *f z2 in
  let e := b -f a in let f := d -f c in let g := d +f c in let h := b +f a in
  (e *f f, g *f h, f *f g, e *f h).
Definition edDouble (P : edPoint) : edPoint :=
  let '(x1, y1, z1, _) := P in
  let a := x1 *f x1 in let b := y1 *f y1 in let zz := z1 *f z1 in let c := zz +f zz in
  let h := a +f b in let xy := x1 +f y1 in let e := h -f xy *f xy in
  let g := a -f b in let f := c +f g in
  (e *f f, g *f h, f *f g, e *f h).
Definition edNeg (P : edPoint) : edPoint := let '(x, y, z, t) := P in (0 -f x, y, z, 0 -f t).
(** a P + b Q, [PQ] being P + Q *)
Fixpoint edMul2 (n : nat) (a b : N) (P Q PQ acc : edPoint) : edPoint :=
  match n with
  | O => acc
  | S n' =>
    let acc := edDouble acc in
    let acc := match N.testbit a (N.of_nat n'), N.testbit b (N.of_nat n') with
               | true, true => edAdd acc PQ
               | true, false => edAdd acc P
               | false, true => edAdd acc Q
               | false, false => acc
               end in
    edMul2 n' a b P Q PQ acc
  end.
Definition edEncode (P : edPoint) : bytes :=
  let '(x, y, z, _) := P in
  let zi := finv p25519 red25519 z in
  let x := x *f zi in let y := y *f zi in
  toBytesLE 32 (y + (if N.testbit x 0 then 2 ^ 255 else 0)).
Definition edDecode (b : bytes) : option edPoint :=
  let n := ofBytesLE b in
  let y := red25519 (N.land n (N.ones 255)) in
  let sign := N.testbit n 255 in
  let u := y *f y -f 1 in
  let v := edD *f (y *f y) +f 1 in
  let v3 := v *f v *f v in
  let uv7 := u *f (v3 *f v3 *f v) in
  let x := u *f v3 *f match (p25519 - 5) / 8 with Npos e => fpow red25519 uv7 e | 0 => 0 end in
  let vxx := v *f (x *f x) in
  match (if vxx =? u then Some x else if vxx =? 0 -f u then Some (x *f sqrtM1) else None) with
  | None => None
  | Some x => let x := if Bool.eqb (N.testbit x 0) sign then x else 0 -f x in Some (x, y, 1, x *f y)
  end.
Definition edVerify (pub m sig : bytes) : bool :=
  match edDecode pub with
  | None => false
  | Some A =>
    let r := firstn 32 sig in
    let s := ofBytesLE (skipn 32 sig) in
    let k := ofBytesLE (realHash SHA512 (r ++ pub ++ m)) mod edL in
    let nA := edNeg A in
    (length sig =? 64)%nat && (s <? edL) && bytes_eqb r (edEncode (edMul2 253 s k edBase nA (edAdd edBase nA) edZero))
  end.
Definition edScalar (seed : bytes) : N * bytes :=
  let h := realHash SHA512 seed in (clamp (ofBytesLE (firstn 32 h)), skipn 32 h).
Definition edBaseMul (k : N) : bytes := edEncode (edMul2 255 k 0 edBase edZero edBase edZero).
Definition edPublic (seed : bytes) : bytes := edBaseMul (fst (edScalar seed)).
Definition edSign (seed m : bytes) : bytes :=
  let (a, prefix) := edScalar seed in
  let pub := edBaseMul a in
  let r := ofBytesLE (realHash SHA512 (prefix ++ m)) mod edL in
  let R := edBaseMul r in
  let k := ofBytesLE (realHash SHA512 (R ++ pub ++ m)) mod edL in
  R ++ toBytesLE 32 ((r + k * a) mod edL).

(** ** NIST curves, in Jacobian coordinates *)
Record curve := mkCurve { cv_p : N; cv_b : N; cv_n : N; cv_x : N; cv_y : N; cv_size : nat }.
Definition cP256 : curve := mkCurve
  0xffffffff00000001000000000000000000000000ffffffffffffffffffffffff
  0x5ac635d8aa3a93e7b3ebbd55769886bc651d06b0cc53b0f63bce3c3e27d2604b
  0xffffffff00000000ffffffffffffffffbce6faada7179e84f3b9cac2fc632551
  0x6b17d1f2e12c4247f8bce6e563a440f277037d812deb33a0f4a13945d898c296
  0x4fe342e2fe1a7f9b8ee7eb4a7c0f9e162bce33576b315ececbb6406837bf51f5 32.
Definition cP384 : curve := mkCurve
  0xfffffffffffffffffffffffffffffffffffffffffffffffffffffffffffffffeffffffff0000000000000000ffffffff
  0xb3312fa7e23ee7e4988e056be3f82d19181d9c6efe8141120314088f5013875ac656398d8a2ed19d2a85c8edd3ec2aef
  0xffffffffffffffffffffffffffffffffffffffffffffffffc7634d81f4372ddf581a0db248b0a77aecec196accc52973
  0xaa87ca22be8b05378eb1c71ef320ad746e1d3b628ba79b9859f741e082542a385502f25dbf55296c3a545e3872760ab7
  0x3617de4a96262c6f5d9e98bf9292dc29f8f41dbd289a147ce9da3113b5f0b8c00a60b1ce1d7e819d7a431d7c90ea0e5f 48.
Definition cP521 : curve := mkCurve
  0x1ffffffffffffffffffffffffffffffffffffffffffffffffffffffffffffffffffffffffffffffffffffffffffffffffffffffffffffffffffffffffffffffffff
  0x51953eb9618e1c9a1f929a21a0b68540eea2da725b99b315f3b8b489918ef109e156193951ec7e937b1652c0bd3bb1bf073573df883d2c34f1ef451fd46b503f00
  0x1fffffffffffffffffffffffffffffffffffffffffffffffffffffffffffffffffa51868783bf2f966b7fcc0148f709a5d03bb5c9b8899c47aebb6fb71e91386409
  0xc6858e06b70404e9cd9e3ecb662395b4429c648139053fb521f828af606b4d3dbaa14b5e77efe75928fe1dc127a2ffa8de3348b3c1856a429bf97e7e31c2e5bd66
  0x11839296a789a3bc0045c8a5fb42c7d1bd998f54449579b446817afbd17273e662c97ee72995ef42640c550b9013fad0761353c7086a272c24088be94769fd16650 66.

Section Weierstrass.
Variable c : curve.
Let p := cv_p c.
Definition wred (x : N) : N := x mod p.
Notation "a *w b" := (fmul wred a b) (at level 40, left associativity).
Notation "a +w b" := (fadd p a b) (at level 50, left associativity).
Notation "a -w b" := (fsub p a b) (at level 50, left associativity).
Definition wpoint : Type := N * N * N.
Definition wZero : wpoint := (1, 1, 0).
Definition wDouble (P : wpoint) : wpoint :=
  let '(x, y, z) := P in
  let delta := z *w z in let gamma := y *w y in let beta := x *w gamma in
  let alpha := 3 *w ((x -w delta) *w (x +w delta)) in
  let x3 := alpha *w alpha -w 8 *w beta in
  let yz := y +w z in
  (x3, alpha *w (4 *w beta -w x3) -w 8 *w (gamma *w gamma), yz *w yz -w gamma -w delta).
Definition wAdd (P Q : wpoint) : wpoint :=
  let '(x1, y1, z1) := P in let '(x2, y2, z2) := Q in
  if z1 =? 0 then Q else if z2 =? 0 then P else
  let z1z1 := z1 *w z1 in let z2z2 := z2 *w z2 in
  let u1 := x1 *w z2z2 in let u2 := x2 *w z1z1 in
  let s1 := y1 *w (z2 *w z2z2) in let s2 := y2 *w (z1 *w z1z1) in
  let h := u2 -w u1 in let r := s2 -w s1 in
  if h =? 0 then (if r =? 0 then wDouble P else wZero) else
  let hh := h *w h in let hhh := h *w hh in let v := u1 *w hh in
  let x3 := r *w r -w hhh -w 2 *w v in
  (x3, r *w (v -w x3) -w s1 *w hhh, z1 *w z2 *w h).
Fixpoint wMul2 (n : nat) (a b : N) (P Q PQ acc : wpoint) : wpoint :=
  match n with
  | O => acc
  | S n' =>
    let acc := wDouble acc in
    let acc := match N.testbit a (N.of_nat n'), N.testbit b (N.of_nat n') with
               | true, true => wAdd acc PQ
               | true, false => wAdd acc P
               | false, true => wAdd acc Q
               | false, false => acc
               end in
    wMul2 n' a b P Q PQ acc
  end.
Definition wBits : nat := (8 * cv_size c)%nat.
Definition wMul (k : N) (P : wpoint) : wpoint := wMul2 wBits k 0 P wZero P wZero.
Definition wBase : wpoint := (cv_x c, cv_y c, 1).
(** None for the point at infinity *)
Definition wAffine (P : wpoint) : option (N * N) :=
  let '(x, y, z) := P in
  if z =? 0 then None
  else let zi := finv p wred z in let zi2 := zi *w zi in Some (x *w zi2, y *w (zi2 *w zi)).
Definition wEncode (P : wpoint) : bytes :=
  match wAffine P with
  | Some (x, y) => x04 :: toBytes (cv_size c) x ++ toBytes (cv_size c) y
  | None => [x00]
  end.
Definition wDecode (b : bytes) : option wpoint :=
  match b with
  | x04 :: r =>
    let x := ofBytes (firstn (cv_size c) r) in let y := ofBytes (skipn (cv_size c) r) in
    if (length r =? 2 * cv_size c)%nat && (x <? p) && (y <? p) && (y *w y =? x *w x *w x -w 3 *w x +w cv_b c) then Some (x, y, 1) else None
  | _ => None
  end.
(** ECDH: the abscissa *)
Definition wDH (priv pub : bytes) : option bytes :=
  match wDecode pub with
  | None => None
  | Some P => match wAffine (wMul (ofBytes priv) P) with Some (x, _) => Some (toBytes (cv_size c) x) | None => None end
  end.
Definition wPublic (priv : bytes) : bytes := wEncode (wMul (ofBytes priv) wBase).

(** ASN.1 *)
Definition derElement (tag : byte) (b : bytes) : option (bytes * bytes) :=
  match b with
  | t :: l :: r =>
    if negb (Byte.eqb t tag) then None else
    if b2n l <? 128 then
      if lenN r <? b2n l then None else Some (firstn (N.to_nat (b2n l)) r, skipn (N.to_nat (b2n l)) r)
    else match r with
         | l' :: r' => if Byte.eqb l x81 && (127 <? b2n l') && (b2n l' <=? lenN r') then Some (firstn (N.to_nat (b2n l')) r', skipn (N.to_nat (b2n l')) r') else None
         | [] => None
         end
  | _ => None
  end.
Definition derSignature (sig : bytes) : option (N * N) :=
  match derElement x30 sig with
  | Some (b, []) =>
    match derElement x02 b with
    | Some (r, b') => match derElement x02 b' with Some (s, []) => Some (ofBytes r, ofBytes s) | _ => None end
    | None => None
    end
  | _ => None
  end.
Fixpoint minimalBytes (b : bytes) : bytes :=
  match b with
  | x00 :: (x :: _) as r => if b2n x <? 128 then minimalBytes r else b
  | _ => b
  end.
Definition derLength (n : N) : bytes := if n <? 128 then [n2b n] else [x81; n2b n].
Definition derNumber (n : N) : bytes := let b := minimalBytes (x00 :: toBytes (cv_size c) n) in x02 :: derLength (lenN b) ++ b.
Definition hashNumber (h : bytes) : N :=
  let bits := N.size (cv_n c) in
  let e := ofBytes h in if bits <? 8 * lenN h then N.shiftr e (8 * lenN h - bits) else e.

Definition nred (x : N) : N := x mod cv_n c.
Definition ecdsaVerify (pub h sig : bytes) : bool :=
  match wDecode pub, derSignature sig with
  | Some Q, Some (r, s) =>
    let n := cv_n c in
    if (r =? 0) || (s =? 0) || (n <=? r) || (n <=? s) then false else
    let w := finv n nred s in
    let u1 := fmul nred (hashNumber h) w in let u2 := fmul nred r w in
    match wAffine (wMul2 wBits u1 u2 wBase Q (wAdd wBase Q) wZero) with
    | Some (x, _) => x mod n =? r
    | None => false
    end
  | _, _ => false
  end.
(** [rnd] is taken as the nonce. *)
Definition ecdsaSign (priv rnd h : bytes) : bytes :=
  let n := cv_n c in
  let k := ofBytes rnd mod (n - 1) + 1 in
  match wAffine (wMul k wBase) with
  | None => []
  | Some (x, _) =>
    let r := x mod n in
    let s := fmul nred (finv n nred k) (hashNumber h + fmul nred r (ofBytes priv)) in
    let b := derNumber r ++ derNumber s in x30 :: derLength (lenN b) ++ b
  end.
End Weierstrass.
