(** Members of one group: what they share and what each of them holds. *)
From Verif Require Export SpecGroup SpecIntegrity.

Section WithCrypto.
Context {C : crypto}.

(** The leaf of a member in its own tree *)
Definition own_leaf (g : group) (l : leafNode) : Prop :=
  nth_error (gr_value g) (N.to_nat (leaf_position (gr_myLeafIndex g))) = Some (Some (NLeaf l)).

(** A member holds the private signature key of its leaf. *)
Definition can_sign (g : group) : Prop :=
  exists l alg, own_leaf g l /\
    option_map sd_sig (cipherSuiteDescriptions (gc_cipherSuite (gr_context g))) = Some alg /\
    sig_pair C alg (ln_signatureKey l) (gr_signaturePriv g).

(** What messages of an epoch depend on: the context, the tree and the epoch
    secret *)
Definition same_epoch (g1 g2 : group) : Prop :=
  gr_context g2 = gr_context g1 /\ gr_value g2 = gr_value g1 /\ gr_epochSecret g2 = gr_epochSecret g1.

(** All that the members of a group share *)
Definition agree (g1 g2 : group) : Prop :=
  gr_context g2 = gr_context g1 /\ gr_value g2 = gr_value g1 /\
  gr_interimTranscriptHash g2 = gr_interimTranscriptHash g1 /\ gr_pskSecret g2 = gr_pskSecret g1 /\
  gr_epochSecret g2 = gr_epochSecret g1 /\ gr_initSecret g2 = gr_initSecret g1.

(** The tree of the group is made of distinct nodes, and there is a place for
    the private key of each of them. *)
Definition consistent (g : group) : Prop :=
  proper (gr_heap g) (gr_tree g) /\ length (gr_privTree g) = length (gr_tree g).

End WithCrypto.

(** Only leaves are not blank. *)
Definition leaves_only (t : ratchetTree) : Prop := forall i p, nth_error t i <> Some (Some (NParent p)).

(** [n'] is [n], but for more unmerged leaves if it is a parent node. *)
Definition grown_node (n n' : node) : Prop :=
  match n, n' with
  | NLeaf l, NLeaf l' => l' = l
  | NParent p, NParent p' => exists us, p' = mkParentNode (pn_encryptionKey p) (pn_parentHash p) (pn_unmergedLeaves p ++ us)
  | _, _ => False
  end.
Definition same_but_unmerged (t t' : ratchetTree) : Prop :=
  Forall2 (fun o o' => match o, o' with None, None => True | Some n, Some n' => grown_node n n' | _, _ => False end) t t'.
