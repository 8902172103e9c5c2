(** Specification of the names of cipher suites (C104): RFC 9420, section 17.1,
    composes them of the level of security and the names of the algorithms. *)
From Verif Require Export Names.

Definition kem_name (k : kemAlg) : string :=
  match k with X25519 => "DHKEMX25519" | X448 => "DHKEMX448" | KP256 => "DHKEMP256" | KP384 => "DHKEMP384" | KP521 => "DHKEMP521" end.
Definition aead_name (a : aeadAlg) : string :=
  match a with AES128GCM => "AES128GCM" | AES256GCM => "AES256GCM" | CHACHA20POLY1305 => "CHACHA20POLY1305" end.
Definition hash_name (h : hashAlg) : string :=
  match h with SHA256 => "SHA256" | SHA384 => "SHA384" | SHA512 => "SHA512" end.
Definition sig_name (s : sigAlg) : string :=
  match s with Ed25519 => "Ed25519" | Ed448 => "Ed448" | EcdsaP256 => "P256" | EcdsaP384 => "P384" | EcdsaP521 => "P521" end.
(** The level is that of the key agreement. *)
Definition level_name (k : kemAlg) : string :=
  match k with X25519 | KP256 => "128" | X448 | KP384 | KP521 => "256" end.

Definition spelled (d : suiteDesc) : string :=
  String.concat "_"%string ["MLS"; level_name (sd_kem d); kem_name (sd_kem d); aead_name (sd_aead d); hash_name (sd_hash d); sig_name (sd_sig d)]%string.

(** [s] is a number in decimal digits. *)
Definition in_digits (s : string) (n : N) : Prop :=
  exists d, NilZero.uint_of_string s = Some d /\ N.of_uint d = n.
