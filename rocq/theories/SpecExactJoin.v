(** What a Welcome has to be like to be accepted: C113. *)
From Verif Require Export SpecInvite.

(** The first ratchet_tree extension of the group information decodes to [t]. *)
Definition holds_tree (gi : groupInfo) (t : ratchetTree) : Prop :=
  exists before raw after, gi_extensions gi = before ++ mkExtension 2 raw :: after /\ (forall e, In e before -> ext_type e <> 2) /\
    unmarshal getRatchetTree raw = Ok t.

(** The lowest common ancestor [a] of two leaves *)
Definition meet_at (k : nat) (x y : N) (a : path) : Prop :=
  ancestor_or_self a (leafPath k x) /\ ancestor_or_self a (leafPath k y) /\
  forall p, ancestor_or_self p (leafPath k x) -> ancestor_or_self p (leafPath k y) -> ancestor_or_self p a.

Section WithCrypto.
Context {C : crypto}.

(** The first of the encrypted group secrets for the key package opens to [s]. *)
Definition opens_secrets (w : welcome) (kpp : keyPairPackage) (s : groupSecrets) : Prop :=
  exists before sec after, w_secrets w = before ++ sec :: after /\
    (forall x, In x before -> egs_newMember x <> KeyPackageRef (kpp_public kpp)) /\ egs_newMember sec = KeyPackageRef (kpp_public kpp) /\
    DecryptWithLabel (w_cipherSuite w) (kpp_initKey kpp) (str "Welcome") (w_encryptedGroupInfo w)
      (hc_kemOutput (egs_secrets sec)) (hc_ciphertext (egs_secrets sec)) (enc_groupSecrets s).

(** The group information opens and decodes to [gi]. *)
Definition opens_info (w : welcome) (s : groupSecrets) (gi : groupInfo) : Prop :=
  let welcomeSecret := welcome_secret (w_cipherSuite w) (gs_joinerSecret s) (psk_secret (w_cipherSuite w) []) in
  exists info, opened (w_cipherSuite w) (welcome_key (w_cipherSuite w) welcomeSecret) (welcome_nonce (w_cipherSuite w) welcomeSecret) []
      (w_encryptedGroupInfo w) = Some info /\ unmarshal getGroupInfo info = Ok gi.

(** The path secret gives the keys of the lowest common ancestor [a] and, as
    go-mls derives them, the one path secret derived from it gives the keys of
    all nodes above (finding C52). *)
Definition keyed_above (cs : N) (k : nat) (t : ratchetTree) (a : path) (s : bytes) : Prop :=
  (exists n key, at_path k t a = Some n /\ node_keys cs s (node_encryptionKey n) key) /\
  forall p, above p a -> exists n key, at_path k t p = Some n /\ node_keys cs (DeriveSecret cs s (str "path")) (node_encryptionKey n) key.

Record admits (w : welcome) (kpp : keyPairPackage) (s : groupSecrets) (gi : groupInfo) (k : nat) (t : ratchetTree) (me : N) (now : gotime) : Prop := {
  ad_suite : known_suite (kp_cipherSuite (kpp_public kpp));
  ad_secrets : opens_secrets w kpp s;
  ad_psks : gs_psks s = [];
  ad_info : opens_info w s gi;
  ad_same : gc_cipherSuite (gi_groupContext gi) = w_cipherSuite w;
  ad_tree : holds_tree gi t;
  ad_shaped : shaped k t;
  ad_valid : integrity k t (gi_groupContext gi) now;
  ad_signed : exists signer, leaf_at t (designated (gi_signer gi)) = Some signer /\ info_signed gi (ln_signatureKey signer);
  ad_tag : gi_confirmationTag gi = confirmation_tag (gi_groupContext gi)
    (epoch_secret (gi_groupContext gi) (gs_joinerSecret s) (psk_secret (w_cipherSuite w) []));
  ad_leaf : leaf_at t me = Some (kp_leafNode (kpp_public kpp));
  ad_path : forall p a, gs_pathSecret s = Some p -> meet_at k me (designated (gi_signer gi)) a -> keyed_above (w_cipherSuite w) k t a p
}.

(** The sizes are limited and, for finding C22, no member lists a credential
    type twice. *)
Definition ordinary (w : welcome) (kpp : keyPairPackage) : Prop :=
  wf_keyPackage (kpp_public kpp) /\ short (enc_keyPackage (kpp_public kpp)) /\ short (w_encryptedGroupInfo w) /\
  forall s gi t, opens_secrets w kpp s -> gs_psks s = [] -> opens_info w s gi -> holds_tree gi t ->
    short (enc_groupSecrets s) /\ short (enc_groupInfo gi) /\ lists_once t.
End WithCrypto.
