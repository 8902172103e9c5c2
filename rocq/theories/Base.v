(** Base notions shared by the whole model: Go bytes, outcomes of Go functions
    (value / error / panic / endless loop), bounded list access.

    Models the part of the Go language and runtime the package relies on; it has
    no counterpart of its own in /repo. *)
From Coq Require Export String.
From Coq Require Export List NArith ZArith Lia Bool Arith.
From Coq Require Export Init.Byte.
From Coq Require Import Strings.Byte.
From Coq Require Export ZifyBool ZifyNat ZifyN.
Export ListNotations.
Global Open Scope list_scope.
Global Open Scope N_scope.

Arguments N.add : simpl never.
Arguments N.mul : simpl never.
Arguments N.sub : simpl never.
Arguments N.pow : simpl never.
Arguments N.modulo : simpl never.
Arguments N.div : simpl never.
Arguments N.shiftl : simpl never.
Arguments N.shiftr : simpl never.
Arguments N.land : simpl never.
Arguments N.lor : simpl never.
Arguments N.lxor : simpl never.
Arguments N.of_nat : simpl never.
Arguments N.to_nat : simpl never.

(** Go's [byte]: exactly the values 0..255. *)
Notation bytes := (list byte).

(** The numeric value of a byte ([uint32(b)] and friends). *)
Definition b2n (b : byte) : N := Byte.to_N b.

(** Conversion [uint8(n)]: truncates modulo 256. *)
Definition n2b (n : N) : byte :=
  match Byte.of_N (n mod 256) with Some b => b | None => x00 end.

(** Outcome of a Go function returning [(A, error)].
    [Panic]: explicit panic, out-of-range index, nil dereference.
    [Hang]: a loop that never terminates. *)
Inductive res (A : Type) : Type :=
| Ok (a : A)
| Err (e : string)
| Panic (p : string)
| Hang.
Arguments Ok {A} _.
Arguments Err {A} _.
Arguments Panic {A} _.
Arguments Hang {A}.

Definition rbind {A B} (m : res A) (k : A -> res B) : res B :=
  match m with
  | Ok a => k a
  | Err e => Err e
  | Panic p => Panic p
  | Hang => Hang
  end.

Definition rmap {A B} (f : A -> B) (m : res A) : res B := rbind m (fun a => Ok (f a)).

Notation "'let!' x ':=' m 'in' k" := (rbind m (fun x => k))
  (at level 200, x pattern, m at level 100, k at level 200, right associativity).

(** [if cond { return fmt.Errorf(..) }] *)
Definition guard (ok : bool) (e : string) : res unit := if ok then Ok tt else Err e.

Definition is_ok {A} (m : res A) : bool := match m with Ok _ => true | _ => false end.

(** Neither a panic nor an endless loop. *)
Definition no_crash {A} (m : res A) : Prop :=
  match m with Ok _ | Err _ => True | Panic _ | Hang => False end.

(** [a := l[i]] : panics when out of range. *)
Definition index {A} (l : list A) (i : nat) : res A :=
  match nth_error l i with
  | Some a => Ok a
  | None => Panic "index out of range"
  end.

(** [l[i] = a] for an in-range index (no effect otherwise; callers check). *)
Fixpoint upd {A} (l : list A) (i : nat) (a : A) : list A :=
  match l, i with
  | [], _ => []
  | _ :: r, O => a :: r
  | x :: r, S j => x :: upd r j a
  end.

(** [l[i] = a] : panics when out of range. *)
Definition set_index {A} (l : list A) (i : nat) (a : A) : res (list A) :=
  if (i <? List.length l)%nat then Ok (upd l i a) else Panic "index out of range".

(** [len(l)] as a number. *)
Definition lenN {A} (l : list A) : N := N.of_nat (List.length l).

(** [bytes.Equal] *)
Fixpoint bytes_eqb (a b : bytes) : bool :=
  match a, b with
  | [], [] => true
  | x :: a', y :: b' => Byte.eqb x y && bytes_eqb a' b'
  | _, _ => false
  end.

(** [[]byte("...")] *)
Definition str (s : string) : bytes := list_byte_of_string s.
