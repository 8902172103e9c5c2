(** Members who accept the same messages. *)
From Verif Require Export SpecEpoch SpecPath.

Section WithCrypto.
Context {C : crypto}.

(** The secrets of the last node of an update path that a member with the private
    keys [privs] can find: it decrypts a path secret and goes up from there
    (sections 7.4 and 12.4.2). *)
Definition last_secret (cs : N) (privs : list (option bytes)) (provisional : groupContext) (up : updatePath) (s : bytes) : Prop :=
  exists before u after c priv s0,
    up_nodes up = before ++ u :: after /\ In (Some priv) privs /\ In c (upn_encryptedPathSecret u) /\
    DecryptWithLabel cs priv (str "UpdatePathNode") (enc_groupContext provisional) (hc_kemOutput c) (hc_ciphertext c) s0 /\
    s = path_secret_up cs (length after) s0.

(** From the path of the commit [c] the members [g] and [m] can get two different
    secrets, and one node of the new tree has the key that both of them give: the
    key derivation collides. *)
Definition keys_collide (g m : group) (c : commit) (g' : group) : Prop :=
  let cs := gc_cipherSuite (gr_context g) in
  let provisional := next_context (gr_context g) (gc_treeHash (gr_context g')) (gc_confirmedTranscriptHash (gr_context g)) in
  exists up n s1 s2 key1 key2,
    c_path c = Some up /\ In (Some n) (gr_value g') /\ s1 <> s2 /\
    last_secret cs (gr_privTree g) provisional up s1 /\ last_secret cs (gr_privTree m) provisional up s2 /\
    node_keys cs s1 (node_encryptionKey n) key1 /\ node_keys cs s2 (node_encryptionKey n) key2.

(** [g] and [m] accept the messages [raws], each at times of their own, and become
    [g'] and [m']. *)
Inductive both_accept : group -> group -> list bytes -> group -> group -> Prop :=
| both_none g m : both_accept g m [] g m
| both_next g m raws g1 m1 raw now now' d d' g' m' :
    both_accept g m raws g1 m1 ->
    unmarshalAndProcessMessage g1 raw now = (g', Ok d) -> unmarshalAndProcessMessage m1 raw now' = (m', Ok d') ->
    both_accept g m (raws ++ [raw]) g' m'.
End WithCrypto.
