(** A toy instance of the primitives which satisfies [crypto_ok].  It is used
    only to exhibit concrete runs of the model (examples and counterexamples). *)
From Verif Require Import Crypto WireFacts.

Definition toyDigest (size : N) (m : bytes) : bytes :=
  be (N.to_nat size) (fold_left (fun acc b => N.land (N.shiftl acc 8 + acc + b2n b + 7) (N.ones 48)) m (lenN m + 1)).

(** A length-delimited concatenation *)
Definition toyJoin (l : list bytes) : bytes := concat (map (fun b => be 4 (lenN b) ++ b) l).

Definition toySig (pub m : bytes) : bytes := toyDigest 32 (toyJoin [pub; m]).

Definition toyOpen (tag ct : bytes) : option bytes :=
  if bytes_eqb (firstn 16 ct) tag then Some (skipn 16 ct) else None.

Definition pad (n : N) (x : bytes) : bytes := firstn (N.to_nat n) (x ++ repeat x00 (N.to_nat n)).

Definition sigKeySize (a : sigAlg) : N := match a with Ed25519 => 32 | Ed448 => 57 | _ => 65 end.

Definition toy : crypto := {|
  cr_hash h m := toyDigest (hashSize h) m;
  cr_hmac h k m := toyDigest (hashSize h) (toyJoin [str "mac"; k; m]);
  cr_extract h a b := toyDigest (hashSize h) (toyJoin [str "ext"; a; b]);
  cr_expand h k i n := toyDigest n (toyJoin [str "exp"; k; i]);
  cr_aeadSeal a k n aad pt := toyDigest 16 (toyJoin [k; n; aad]) ++ pt;
  cr_aeadOpen a k n aad ct := toyOpen (toyDigest 16 (toyJoin [k; n; aad])) ct;
  cr_deriveKeyPair kem seed := (seed, seed);
  cr_generateKeyPair kem rnd := (pad (seedSize kem) rnd, pad (seedSize kem) rnd);
  cr_hpkeSeal kem kdf aead pub info rnd pt := Some (rnd, toyDigest 16 (toyJoin [pub; info; rnd]) ++ pt);
  cr_hpkeOpen kem kdf aead priv info ko ct := toyOpen (toyDigest 16 (toyJoin [priv; info; ko])) ct;
  cr_sign alg priv rnd m := Some (toySig priv m);
  cr_verify alg pub m s := bytes_eqb s (toySig pub m);
  cr_ecdsaPubValid alg pub := lenN pub =? 65;
  cr_ecdsaSigParses s := lenN s =? 32;
  cr_sigKeyPair alg rnd := (pad (sigKeySize alg) rnd, pad (sigKeySize alg) rnd)
|}.

Lemma toyDigest_len size m : lenN (toyDigest size m) = size.
Proof. unfold toyDigest. rewrite lenN_be. lia. Qed.

Lemma pad_len n x : lenN (pad n x) = n.
Proof.
  unfold pad, lenN. rewrite firstn_length, app_length, repeat_length. lia.
Qed.

Lemma toyOpen_seal t pt : lenN t = 16 -> toyOpen t (t ++ pt) = Some pt.
Proof.
  intros H. unfold toyOpen. assert (Hl : length t = 16%nat) by (unfold lenN in H; lia).
  rewrite <- Hl, firstn_app, firstn_all, Nat.sub_diag. cbn [firstn]. rewrite app_nil_r, bytes_eqb_refl.
  rewrite skipn_app, skipn_all, Nat.sub_diag. reflexivity.
Qed.

Lemma toy_ok : crypto_ok toy.
Proof.
  assert (Hp : forall kem k, hpke_pair toy kem k k).
  { intros kem k kdf aead info rnd pt. cbn. do 2 eexists. split; [reflexivity|].
    apply toyOpen_seal, toyDigest_len. }
  constructor.
  1-4: intros; cbn; apply toyDigest_len.
  - intros. cbn. apply toyOpen_seal, toyDigest_len.
  - intros. cbn. rewrite lenN_app, toyDigest_len. lia.
  - intros. apply Hp.
  - intros. apply Hp.
  - intros alg rnd rnd' m. cbn. exists (toySig (pad (sigKeySize alg) rnd) m).
    unfold sigSign, sigVerify; cbn.
    assert (Hs : (lenN (toySig (pad (sigKeySize alg) rnd) m) =? 32) = true)
      by (unfold toySig; rewrite toyDigest_len; reflexivity).
    destruct alg; cbn [sigKeySize] in *; rewrite ?pad_len, ?Hs, ?bytes_eqb_refl; split; reflexivity.
Qed.
