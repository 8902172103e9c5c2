(** Specification of path secrets (RFC 9420, sections 4.1.1, 7.4 to 7.6). *)
From Verif Require Export SpecTreeHash.

(** Resolution (section 4.1.1): [d] is the height of the node at [p]. *)
Fixpoint resolution (k : nat) (t : ratchetTree) (d : nat) (p : path) : list path :=
  match at_path k t p with
  | Some (NLeaf _) => [p]
  | Some (NParent n) => p :: map (leafPath k) (pn_unmergedLeaves n)
  | None => match d with
            | O => []
            | S d' => resolution k t d' (p ++ [false]) ++ resolution k t d' (p ++ [true])
            end
  end.

Section WithCrypto.
Context {C : crypto}.

(** [priv] opens what is encrypted to [pub]. *)
Definition opens (cs : N) (priv pub : bytes) : Prop :=
  exists d, cipherSuiteDescriptions cs = Some d /\ hpke_pair C (sd_kem d) pub priv.

(** The keys of a node with the path secret [s] (section 7.4) *)
Definition node_keys (cs : N) (s pub priv : bytes) : Prop :=
  let nodeSecret := DeriveSecret cs s (str "node") in
  exists d, suite cs = Some d /\ lenN nodeSecret = seedSize (sd_kem d) /\ cr_deriveKeyPair C (sd_kem d) nodeSecret = (pub, priv).

(** The path secret [s] encrypted to the node at [q] *)
Definition encrypted (cs : N) (k : nat) (t : ratchetTree) (ctx : groupContext) (s : bytes) (q : path) (c : hpkeCiphertext) : Prop :=
  can_encode (putGroupContext ctx) /\
  exists n rnd, at_path k t q = Some n /\
    EncryptWithLabel cs (node_encryptionKey n) (str "UpdatePathNode") (enc_groupContext ctx) s rnd (hc_kemOutput c) (hc_ciphertext c).

(** One of the leaves [new] *)
Definition is_new (k : nat) (new : list N) (q : path) : bool := existsb (fun li => number k q =? 2 * li) new.

(** Along a filtered direct path, upwards, [s] being the first path secret: the
    keys are those of the path secrets, each of which is encrypted to the
    resolution of the other side except the new members; the commit secret is
    the secret after the last one. *)
Fixpoint sent (cs : N) (k : nat) (t : ratchetTree) (new : list N) (ctx : groupContext) (l : list (path * path)) (nodes : list updatePathNode)
    (s commitSecret : bytes) : Prop :=
  match l, nodes with
  | [], [] => commitSecret = s
  | (_, c) :: l', u :: nodes' =>
    (exists priv, node_keys cs s (upn_encryptionKey u) priv) /\
    Forall2 (encrypted cs k t ctx s) (filter (fun q => negb (is_new k new q)) (resolution k t (k - length c) c)) (upn_encryptedPathSecret u) /\
    sent cs k t new ctx l' nodes' (DeriveSecret cs s (str "path")) commitSecret
  | _, _ => False
  end.

(** [up] is an update path of the leaf [li], [t] the tree without it and [t']
    the tree with it, [ctx] the group context it is encrypted for. *)
Definition update_path (cs : N) (k : nat) (t t' : ratchetTree) (new : list N) (ctx : groupContext) (li : N) (up : updatePath) (commitSecret : bytes) : Prop :=
  merged cs k t t' li up /\
  exists s, sent cs k t' new ctx (filtered k t (leafPath k li)) (up_nodes up) s commitSecret.

(** [n], the node at [p], is of the member [li]: its leaf, or above it not
    listing it as unmerged. *)
Definition known_to (k : nat) (li : N) (p : path) (n : node) : Prop :=
  p = leafPath k li \/
  above p (leafPath k li) /\ match n with NParent pn => ~ In li (pn_unmergedLeaves pn) | NLeaf _ => True end.

(** The private keys of the member [li]: those of the nodes that are known to
    it, and nothing aside from its leaf and the nodes above. *)
Record holds_keys (cs : N) (k : nat) (t : ratchetTree) (priv : privTree) (li : N) : Prop := {
  hk_length : lenN priv = lenN t;
  hk_known : forall p n, in_tree k p -> at_path k t p = Some n -> known_to k li p n -> at_path k priv p <> None;
  hk_match : forall p n key, in_tree k p -> at_path k t p = Some n -> at_path k priv p = Some key -> opens cs key (node_encryptionKey n);
  hk_place : forall p, in_tree k p -> at_path k priv p <> None -> ancestor_or_self p (leafPath k li)
}.

(** ** Joining *)
(** The nodes of a path, upwards, with the secret of the first one: what the
    committer's path gave them *)
Fixpoint keyed_from (cs : N) (k : nat) (t : ratchetTree) (l : list path) (s : bytes) : Prop :=
  match l with
  | [] => True
  | a :: l' =>
    (exists n priv, at_path k t a = Some n /\ node_keys cs s (node_encryptionKey n) priv) /\
    keyed_from cs k t l' (DeriveSecret cs s (str "path"))
  end.

(** The nodes that are not blank *)
Definition nonblank (k : nat) (t : ratchetTree) (l : list path) : list path :=
  filter (fun p => match at_path k t p with Some _ => true | None => false end) l.

(** [priv] has the private keys of the nodes of a path. *)
Fixpoint keys_from (cs : N) (k : nat) (t : ratchetTree) (l : list path) (s : bytes) (priv : privTree) : Prop :=
  match l with
  | [] => True
  | a :: l' =>
    (exists n key, at_path k t a = Some n /\ at_path k priv a = Some key /\ node_keys cs s (node_encryptionKey n) key) /\
    keys_from cs k t l' (DeriveSecret cs s (str "path")) priv
  end.
End WithCrypto.
