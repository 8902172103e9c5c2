(** What a member reads in an update path of anyone, honest or not (RFC 9420,
    sections 7.5 and 12.4.2). *)
From Verif Require Export SpecPath SpecEpoch SpecSplit SpecIntegrity.

Section WithCrypto.
Context {C : crypto}.

(** In the tree [t], of height [k] and with the path [up] of the member [li],
    the member [me] with the private keys [privs] finds the commit secret [z].
    [a] is the node of the path above both members, [c] its child above [me];
    [q] is the first node of the resolution of [c] whose key [me] has, and the
    path secret [s] is in the ciphertext at the same place.  This secret gives
    the keys of [a] and of all the nodes of the path above. *)
Definition reads_path (cs : N) (k : nat) (t : ratchetTree) (provisional : groupContext) (li me : N) (up : updatePath)
    (privs : list (option bytes)) (z : bytes) : Prop :=
  me < leaf_count k /\
  exists below a c rest nodes u nodes' before q after key ct s,
    filtered k t (leafPath k li) = below ++ (a, c) :: rest /\
    up_nodes up = nodes ++ u :: nodes' /\ length nodes = length below /\ length nodes' = length rest /\
    ancestor_or_self c (leafPath k me) /\
    SpecIntegrity.resolution k t (k - length c) c = before ++ q :: after /\
    (forall x, In x before -> at_path k privs x = None) /\ at_path k privs q = Some key /\
    length (upn_encryptedPathSecret u) = length (SpecIntegrity.resolution k t (k - length c) c) /\
    nth_error (upn_encryptedPathSecret u) (length before) = Some ct /\
    DecryptWithLabel cs key (str "UpdatePathNode") (enc_groupContext provisional) (hc_kemOutput ct) (hc_ciphertext ct) s /\
    keyed_from cs k t (a :: map fst rest) s /\
    z = path_secret_up cs (S (length rest)) s.

(** The private keys that [m] has, for the path of the commit accepted by [g] *)
Definition can_read (g m g' : group) (li : N) (up : updatePath) (z : bytes) : Prop :=
  exists k, shaped k (gr_value g') /\
    reads_path (gc_cipherSuite (gr_context g)) k (gr_value g')
      (next_context (gr_context g) (gc_treeHash (gr_context g')) (gc_confirmedTranscriptHash (gr_context g)))
      (designated li) (gr_myLeafIndex m) up (gr_privTree m) z.
End WithCrypto.
