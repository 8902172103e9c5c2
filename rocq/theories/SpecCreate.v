(** When key packages, groups, messages and Welcomes can be made, with the
    limits of the code on their size. *)
From Verif Require Export SpecAccept SpecWelcome.

(** Signatures and public keys are shorter than 64 KiB. *)
Record compact (C : crypto) : Prop := {
  cp_sign : forall alg priv rnd m s, cr_sign C alg priv rnd m = Some s -> lenN s < 2 ^ 16;
  cp_sigKey : forall alg rnd, lenN (fst (cr_sigKeyPair C alg rnd)) < 2 ^ 16;
  cp_hpkeKey : forall kem rnd, lenN (fst (cr_generateKeyPair C kem rnd)) < 2 ^ 16
}.

Section WithCrypto.
Context {C : crypto}.

(** The public key is one of the cipher suite, somebody has the private key. *)
Definition encrypts_to (cs : N) (pub : bytes) : Prop :=
  exists d priv, suite cs = Some d /\ hpke_pair C (sd_kem d) pub priv.

(** The owners of these key packages can be invited to the group. *)
Record can_invite (g : group) (kps : list keyPackage) : Prop := {
  ci_some : kps <> [];
  ci_packages : forall k, In k kps -> wf_keyPackage k /\ kp_cipherSuite k = gc_cipherSuite (gr_context g) /\
    encrypts_to (gc_cipherSuite (gr_context g)) (kp_initKey k);
  ci_nodes : wf_nodes (gr_value g);
  ci_room : exists n, at_most (leaf_at (gr_value g)) n /\ n + lenN kps <= 2 ^ 31;
  ci_size : lenN (enc_groupContext (gr_context g)) + lenN (concat (map enc_keyPackage kps)) + 8 * lenN kps < 2 ^ 26;
  ci_tree : forall t, after_proposals (gr_value g) (map (fun k => (PAdd k, gr_myLeafIndex g)) kps) t ->
    lenN (enc_ratchetTree t) < 2 ^ 26
}.
End WithCrypto.
