(** Welcomes with which a new member has to be able to join (RFC 9420, section
    12.4.3.1), with the limits of the code on their size. *)
From Verif Require Export SpecAccept SpecKeyPackage SpecJoin.

Section WithCrypto.
Context {C : crypto}.

(** The path secret is that of the lowest common ancestor of the leaves [me] and
    [signer].  go-mls derives the right keys if there are at most two common
    ancestors (see C52). *)
Definition gives_path (cs : N) (k : nat) (t : ratchetTree) (me signer : N) (pathSecret : option bytes) : Prop :=
  forall s, pathSecret = Some s -> signer < leaf_count k /\
    exists a b s1 s2, leafPath k me = a ++ b :: s1 /\ leafPath k signer = a ++ negb b :: s2 /\ (length a <= 1)%nat /\
      keyed_from cs k t (a :: proper_ancestors a) s.

(** The Welcome invites the owner of [kpp], whose leaf is [me], to the group
    with the information [gi] and the tree [t] of height [k]. *)
Record invites (w : welcome) (kpp : keyPairPackage) (s : groupSecrets) (gi : groupInfo) (k : nat) (t : ratchetTree) (me : N) (now : gotime) : Prop := {
  iv_suite : gc_cipherSuite (gi_groupContext gi) = w_cipherSuite w /\ kp_cipherSuite (kpp_public kpp) = w_cipherSuite w;
  iv_keys : holds_private_keys kpp;
  iv_secrets : exists sec rnd, In sec (w_secrets w) /\ egs_newMember sec = KeyPackageRef (kpp_public kpp) /\
    EncryptWithLabel (w_cipherSuite w) (kp_initKey (kpp_public kpp)) (str "Welcome") (w_encryptedGroupInfo w) (enc_groupSecrets s) rnd
      (hc_kemOutput (egs_secrets sec)) (hc_ciphertext (egs_secrets sec));
  iv_one : NoDup (map egs_newMember (w_secrets w));
  iv_psks : gs_psks s = [];
  iv_info : w_encryptedGroupInfo w = encrypted_group_info (w_cipherSuite w) (gs_joinerSecret s) (psk_secret (w_cipherSuite w) []) gi;
  iv_signed : exists signer, leaf_at t (designated (gi_signer gi)) = Some signer /\ info_signed gi (ln_signatureKey signer);
  iv_tag : gi_confirmationTag gi = confirmation_tag (gi_groupContext gi)
    (epoch_secret (gi_groupContext gi) (gs_joinerSecret s) (psk_secret (w_cipherSuite w) []));
  iv_tree : brings_tree gi (chop t);
  iv_shaped : shaped k t;
  iv_valid : integrity k t (gi_groupContext gi) now;
  iv_once : lists_once t;
  iv_leaf : leaf_at t me = Some (kp_leafNode (kpp_public kpp));
  iv_path : gives_path (w_cipherSuite w) k t me (gi_signer gi) (gs_pathSecret s);
  iv_wf : wf_keyPackage (kpp_public kpp) /\ wf_groupInfo gi /\ wf_ratchetTree t;
  iv_size : short (enc_keyPackage (kpp_public kpp)) /\ short (enc_groupSecrets s) /\ short (enc_groupInfo gi) /\ short (w_encryptedGroupInfo w)
}.
End WithCrypto.
