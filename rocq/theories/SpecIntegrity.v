(** What a verified ratchet tree satisfies (RFC 9420, sections 7.3, 7.9.2 and
    12.4.3.1), by paths from the root, and lifetimes of leaf nodes. *)
From Verif Require Export SpecTreeHash.

(** ** Lifetimes *)
(** Nanoseconds since the start of 1970 *)
Definition nanos (t : gotime) : Z := ((t_sec t - unixToInternal) * 1000000000 + t_nsec t)%Z.
(** A value of time.Time *)
Definition wf_time (t : gotime) : Prop := (- 2 ^ 63 <= t_sec t < 2 ^ 63)%Z /\ (0 <= t_nsec t < 1000000000)%Z.
Definition ninetyDays : Z := (90 * 24 * 3600)%Z.
Definition later_than_1970 (now : gotime) : Prop := wf_time now /\ (ninetyDays * 1000000000 < nanos now)%Z.

Definition current (lt : lifetime) (now : gotime) : Prop :=
  (Z.of_N (lt_notBefore lt) * 1000000000 < nanos now < Z.of_N (lt_notAfter lt) * 1000000000)%Z /\
  (Z.of_N (lt_notAfter lt) - Z.of_N (lt_notBefore lt) <= ninetyDays)%Z.
(** The end of the lifetime is a value of time.Time. *)
Definition ends_in_time (lt : lifetime) : Prop := (Z.of_N (lt_notAfter lt) < 2 ^ 63 - unixToInternal)%Z.

(** The ends of the lifetimes are 64-bit values. *)
Definition wf_lifetime_of (l : leafNode) : Prop := forall lt, ln_lifetime l = Some lt -> lt_notBefore lt < 2 ^ 64 /\ lt_notAfter lt < 2 ^ 64.
Definition wf_lifetimes (t : ratchetTree) : Prop := forall li l, leaf_at t li = Some l -> wf_lifetime_of l.

(** ** Leaf nodes *)
(** Every member lists the credential type. *)
Definition listed_by_all (t : ratchetTree) (ct : N) : Prop :=
  forall li l, leaf_at t li = Some l -> In ct (caps_credentials (ln_capabilities l)).
Definition some_member (t : ratchetTree) : Prop := exists li l, leaf_at t li = Some l.
Definition lists_once (t : ratchetTree) : Prop :=
  forall li l, leaf_at t li = Some l -> NoDup (caps_credentials (ln_capabilities l)).

(** ** Unmerged leaves *)
(** Every unmerged leaf is below the node listing it, and all nodes in between
    that are not blank list it too. *)
Definition unmerged_below (k : nat) (t : ratchetTree) : Prop :=
  forall p pn u, in_tree k p -> at_path k t p = Some (NParent pn) -> In u (pn_unmergedLeaves pn) ->
    designated u < leaf_count k /\ above p (leafPath k (designated u)) /\
    forall q n, above p q -> above q (leafPath k (designated u)) -> at_path k t q = Some n ->
      exists qn, n = NParent qn /\ In u (pn_unmergedLeaves qn).

(** ** Keys *)
Definition distinct_signature_keys (t : ratchetTree) : Prop :=
  forall i j a b, leaf_at t i = Some a -> leaf_at t j = Some b -> ln_signatureKey a = ln_signatureKey b -> i = j.
Definition distinct_encryption_keys (k : nat) (t : ratchetTree) : Prop :=
  forall p q n m, in_tree k p -> in_tree k q -> at_path k t p = Some n -> at_path k t q = Some m ->
    node_encryptionKey n = node_encryptionKey m -> p = q.

(** ** Resolutions (section 4.1.1); [d] is the height of the node at [p]. *)
Fixpoint resolution (k : nat) (t : ratchetTree) (d : nat) (p : path) : list path :=
  match at_path k t p with
  | Some (NLeaf _) => [p]
  | Some (NParent n) => p :: map (fun u => leafPath k (designated u)) (pn_unmergedLeaves n)
  | None => match d with
            | O => []
            | S d' => resolution k t d' (p ++ [false]) ++ resolution k t d' (p ++ [true])
            end
  end.
Definition parentHashOf (n : node) : bytes := match n with NLeaf l => ln_parentHash l | NParent p => pn_parentHash p end.
(** A node of the resolution of the node at [p] has the parent hash [h]. *)
Definition hash_below (k : nat) (t : ratchetTree) (p : path) (h : bytes) : Prop :=
  exists q n, In q (resolution k t (k - length p) p) /\ at_path k t q = Some n /\ parentHashOf n = h.

Section WithCrypto.
Context {C : crypto}.

(** The leaf node is signed by its owner, for the group and the leaf. *)
Definition leaf_signed (cs : N) (groupID : bytes) (li : N) (l : leafNode) : Prop :=
  can_encode (putLeafNodeTBS l groupID li) /\
  VerifyWithLabel cs (ln_signatureKey l) (str "LeafNodeTBS") (enc_leafNodeTBS l groupID li) (ln_signature l).

(** The leaf node is signed, current, and lists the extensions it has. *)
Definition leaf_checked (ctx : groupContext) (now : gotime) (li : N) (l : leafNode) : Prop :=
  leaf_signed (gc_cipherSuite ctx) (gc_groupID ctx) li l /\
  (forall lt, ln_lifetime l = Some lt -> current lt now /\ ends_in_time lt) /\
  (forall e, In e (ln_extensions l) -> In (ext_type e) (caps_extensions (ln_capabilities l))).

(** The parent hash of a parent node, for the copath on one side, is found on
    the other side, and this for exactly one of the sides. *)
Definition parent_hash_valid (cs : N) (k : nat) (t : ratchetTree) (p : path) (n : parentNode) : Prop :=
  let found b := hash_below k t (p ++ [b])
                   (parent_hash cs (pn_encryptionKey n) (pn_parentHash n)
                      (tree_hash cs k t (pn_unmergedLeaves n) (k - S (length p)) (p ++ [negb b]))) in
  (found false /\ ~ found true) \/ (~ found false /\ found true).
Definition parent_hashes_valid (cs : N) (k : nat) (t : ratchetTree) : Prop :=
  forall p n, in_tree k p -> at_path k t p = Some (NParent n) -> parent_hash_valid cs k t p n.

(** All that is checked of a tree but the types of the credentials *)
Definition integrity_but_credentials (k : nat) (t : ratchetTree) (ctx : groupContext) (now : gotime) : Prop :=
  (exists d, cipherSuiteDescriptions (gc_cipherSuite ctx) = Some d) /\
  gc_treeHash ctx = tree_hash (gc_cipherSuite ctx) k t [] k [] /\
  parent_hashes_valid (gc_cipherSuite ctx) k t /\
  (forall li l, leaf_at t li = Some l -> leaf_checked ctx now li l) /\
  distinct_signature_keys t /\ distinct_encryption_keys k t /\ unmerged_below k t.
(** The credential of every member is of a type every member lists. *)
Definition credentials_supported (t : ratchetTree) : Prop :=
  forall li l, leaf_at t li = Some l -> listed_by_all t (cred_type (ln_credential l)).
Definition integrity (k : nat) (t : ratchetTree) (ctx : groupContext) (now : gotime) : Prop :=
  integrity_but_credentials k t ctx now /\ credentials_supported t.
End WithCrypto.
