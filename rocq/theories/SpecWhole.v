(** Trees without a blank right half. *)
From Verif Require Export SpecTypes SpecCommitTree SpecGroup SpecEpoch.

(** The tree is empty, or it has a single leaf that is not blank, or there is a
    leaf in its right half that is not blank: section 7.8.  Leaf [j] is at the
    position [2 * j] of the array, so a leaf is in the right half if and only if
    [4 * j] is at least the length of the array less one. *)
Definition ends_with_member (t : ratchetTree) : Prop :=
  t = [] \/ exists j, leaf_at t j <> None /\ lenN t <= 4 * j + 1.

Section WithCrypto.
Context {C : crypto}.
(** The group information of the Welcome has the tree hash of the tree with the
    new members, and an extension that decodes to this tree. *)
Definition sends_tree (g : group) (kps : list keyPackage) (w : welcome) : Prop :=
  let cs := gc_cipherSuite (gr_context g) in
  exists k t ctx joiner tag sig,
    let info := mkGroupInfo ctx [mkExtension 2 (enc_ratchetTree t)] tag (gr_myLeafIndex g) sig in
    w_encryptedGroupInfo w = encrypted_group_info cs joiner (psk_secret cs []) info /\ shaped k t /\ gc_treeHash ctx = tree_hash cs k t [] k [] /\
    after_proposals (gr_value g) (map (fun k => (PAdd k, gr_myLeafIndex g)) kps) t /\ unmarshal getRatchetTree (enc_ratchetTree t) = Ok t.
End WithCrypto.
