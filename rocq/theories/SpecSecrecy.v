(** What an outsider learns from the messages of a group, for C91 and C92.

    The specification is that of ideal encryption: some values are secret, what
    is derived from a secret value is secret, and a text encrypted with a secret
    key shows its length only. *)
From Verif Require Export Group.

Record ideal (C : crypto) (secret : bytes -> Prop) : Prop := {
  ideal_expand : forall h key info n, secret key -> secret (cr_expand C h key info n);
  ideal_extract : forall h a b, secret a \/ secret b -> secret (cr_extract C h a b);
  ideal_seal : forall alg key nonce aad pt key' nonce' aad' pt',
    secret key -> secret key' -> lenN pt = lenN pt' ->
    cr_aeadSeal C alg key nonce aad pt = cr_aeadSeal C alg key' nonce' aad' pt';
  ideal_seal_len : forall alg key nonce aad pt, lenN (cr_aeadSeal C alg key nonce aad pt) = lenN pt + 16;
  ideal_expand_len : forall h key info n, lenN (cr_expand C h key info n) = n
}.

(** Public keys whose private keys are not known to outsiders: what is
    encrypted to them shows its length only. *)
Definition private (C : crypto) (pub : bytes) : Prop :=
  forall kem kdf aead info rnd pt pt', lenN pt = lenN pt' ->
  cr_hpkeSeal C kem kdf aead pub info rnd pt = cr_hpkeSeal C kem kdf aead pub info rnd pt'.

(** What a private message shows: protocol version, wire format, group, epoch
    and kind of content. *)
Definition same_header (g g' : group) : Prop :=
  gc_cipherSuite (gr_context g) = gc_cipherSuite (gr_context g') /\
  gc_groupID (gr_context g) = gc_groupID (gr_context g') /\
  gc_epoch (gr_context g) = gc_epoch (gr_context g').

(** Schemes whose signatures all have the same size *)
Definition sized_signatures (C : crypto) : Prop :=
  exists size, forall alg key rnd m s, cr_sign C alg key rnd m = Some s -> lenN s = size alg.

(** ** Forgetting, for C93 *)

(** Ideal key derivation: the result does not tell from which secret it was
    derived. *)
Record one_way (C : crypto) (secret : bytes -> Prop) : Prop := {
  one_way_expand : forall h key key' info n, secret key -> secret key' -> cr_expand C h key info n = cr_expand C h key' info n;
  one_way_extract : forall h a b b', secret b -> secret b' -> cr_extract C h a b = cr_extract C h a b'
}.

(** The group with other secrets of its epoch *)
Definition with_secrets (g : group) (epochSecret initSecret pskSecret : bytes) : group :=
  mkGroup (gr_heap g) (gr_tree g) (gr_context g) (gr_interimTranscriptHash g) pskSecret epochSecret initSecret
    (gr_myLeafIndex g) (gr_privTree g) (gr_signaturePriv g) (gr_pending g).
