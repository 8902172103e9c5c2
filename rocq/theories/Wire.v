(** Model of mls.go and of the part of golang.org/x/crypto/cryptobyte it uses. *)
From Verif Require Export Base.

(** ** cryptobyte.String: a decoder maps the remaining input to an outcome and
    the remaining input afterwards.  The remaining input is also given after a
    failure because some callers continue after a failed read. *)
Definition reader (A : Type) : Type := bytes -> res A * bytes.

Definition rd_ret {A} (a : A) : reader A := fun s => (Ok a, s).
Definition rd_err {A} (e : string) : reader A := fun s => (Err e, s).
Definition rd_panic {A} (p : string) : reader A := fun s => (Panic p, s).

Definition rd_bind {A B} (r : reader A) (k : A -> reader B) : reader B :=
  fun s => match r s with
           | (Ok a, s') => k a s'
           | (Err e, s') => (Err e, s')
           | (Panic p, s') => (Panic p, s')
           | (Hang, s') => (Hang, s')
           end.

Notation "x <- r ;; k" := (rd_bind r (fun x => k))
  (at level 61, r at next level, right associativity).
Notation "r ;;; k" := (rd_bind r (fun _ => k))
  (at level 61, right associativity).

(** Big-endian integers of [k] bytes. *)
Fixpoint be (k : nat) (n : N) : bytes :=
  match k with
  | O => []
  | S k' => n2b (N.shiftr n (8 * N.of_nat k')) :: be k' n
  end.

Definition unbe (bs : bytes) : N := fold_left (fun acc b => acc * 256 + b2n b) bs 0.

(** cryptobyte.String.read: nothing is consumed when there are too few bytes
    (string.go:29-36 of cryptobyte). *)
Definition readN (n : N) : reader bytes := fun s =>
  if lenN s <? n then (Err "unexpected EOF", s)
  else (Ok (firstn (N.to_nat n) s), skipn (N.to_nat n) s).

(** String.ReadUint8/16/32/64 *)
Definition readUint (k : nat) : reader N :=
  v <- readN (N.of_nat k) ;; rd_ret (unbe v).
Definition readUint8 : reader N := readUint 1.
Definition readUint16 : reader N := readUint 2.
Definition readUint32 : reader N := readUint 4.
Definition readUint64 : reader N := readUint 8.

(** ** cryptobyte.Builder: a marshaller yields the bytes appended, or marks the
    builder as failed ([SetError]), or panics.  Once failed, a builder ignores
    later writes, but a later panic still is a panic. *)
Definition W : Type := res bytes.

Definition wapp (a b : W) : W :=
  match a, b with
  | Ok x, Ok y => Ok (x ++ y)
  | Panic p, _ => Panic p
  | Hang, _ => Hang
  | _, Panic p => Panic p
  | _, Hang => Hang
  | Err e, _ => Err e
  | Ok _, Err e => Err e
  end.
Infix "+++" := wapp (at level 60, right associativity).

Definition wret (b : bytes) : W := Ok b.

(** Builder.AddUint8/16/32/64, AddBytes *)
Definition addUint8 (n : N) : W := Ok (be 1 n).
Definition addUint16 (n : N) : W := Ok (be 2 n).
Definition addUint32 (n : N) : W := Ok (be 4 n).
Definition addUint64 (n : N) : W := Ok (be 8 n).
Definition addBytes (b : bytes) : W := Ok b.

(** mls.go:26-31, the loop of [readVarint] reading the [k] continuation bytes;
    [v] is a uint32. *)
Fixpoint readVarintLoop (k : nat) (v : N) : reader N :=
  match k with
  | O => rd_ret v
  | S k' => b <- readUint8 ;; readVarintLoop k' ((N.shiftl v 8 + b) mod 2^32)
  end.

(** mls.go:13-39 readVarint *)
Definition readVarint : reader N :=
  b <- readUint8 ;;
  let prefix := N.shiftr b 6 in
  if prefix =? 3 then rd_err "invalid variable length integer prefix" else
  let n := N.shiftl 1 prefix in
  v <- readVarintLoop (N.to_nat (n - 1)) (N.land b 0x3F) ;;
  if (1 <=? prefix) && (v <? N.shiftl 1 (8 * (n / 2) - 2))
  then rd_err "minimum encoding was not used"
  else rd_ret v.

(** mls.go:41-52 writeVarint ([n] is a uint32) *)
Definition writeVarint (n : N) : W :=
  if n <? N.shiftl 1 6 then addUint8 n
  else if n <? N.shiftl 1 14 then addUint16 (N.lor (N.shiftl 1 14) (n mod 2^16))
  else if n <? N.shiftl 1 30 then addUint32 (N.lor (N.shiftl 2 30) n)
  else Err "mls: varint exceeds 30 bits".

(** mls.go:54-67 readOpaqueVec *)
Definition readOpaqueVec : reader bytes :=
  n <- readVarint ;; readN n.

(** mls.go:69-76 writeOpaqueVec *)
Definition writeOpaqueVec (value : bytes) : W :=
  if 2^32 <=? lenN value then Err "mls: opaque size exceeds maximum value of uint32"
  else writeVarint (lenN value) +++ addBytes value.

(** mls.go:88-92, the loop of [readVector].  The loop diverges exactly when an
    iteration succeeds without consuming input, which is when the fuel (the
    number of input bytes) runs out. *)
Fixpoint readVectorLoop {A} (fuel : nat) (f : reader A) (ss : bytes) : res (list A) :=
  match ss with
  | [] => Ok []
  | _ :: _ =>
    match fuel with
    | O => Hang
    | S fuel' =>
      match f ss with
      | (Ok a, ss') => rmap (cons a) (readVectorLoop fuel' f ss')
      | (Err e, _) => Err e
      | (Panic p, _) => Panic p
      | (Hang, _) => Hang
      end
    end
  end.

(** mls.go:78-94 readVector.  Every caller's closure appends one element per
    call, so the vector is returned as a list. *)
Definition readVector {A} (f : reader A) : reader (list A) :=
  n <- readVarint ;;
  vec <- readN n ;;
  fun s => (readVectorLoop (List.length vec) f vec, s).

(** mls.go:99-102, the child builder of [writeVector] *)
Fixpoint writeAll {A} (f : A -> W) (l : list A) : W :=
  match l with
  | [] => Ok []
  | a :: r => f a +++ writeAll f r
  end.

(** mls.go:96-111 writeVector *)
Definition writeVector {A} (f : A -> W) (l : list A) : W :=
  match writeAll f l with
  | Ok raw => writeOpaqueVec raw
  | Err e => Err e
  | Panic p => Panic p
  | Hang => Hang
  end.

(** mls.go:113-127 readOptional *)
Definition readOptional : reader bool :=
  u8 <- readUint8 ;;
  if u8 =? 0 then rd_ret false
  else if u8 =? 1 then rd_ret true
  else rd_err "invalid optional".

(** mls.go:129-135 writeOptional *)
Definition writeOptional (present : bool) : W :=
  addUint8 (if present then 1 else 0).

(** mls.go:145-154 unmarshal: the whole input must be consumed. *)
Definition unmarshal {A} (r : reader A) (raw : bytes) : res A :=
  match r raw with
  | (Ok a, []) => Ok a
  | (Ok _, _ :: _) => Err "excess bytes"
  | (Err e, _) => Err e
  | (Panic p, _) => Panic p
  | (Hang, _) => Hang
  end.

(** mls.go:156-160 marshal *)
Definition marshal {A} (w : A -> W) (a : A) : res bytes := w a.
