(** After Bob's commit, which removed Dave, Carol adds Erin in Dave's place: the
    root keeps Bob's key, and Erin is unmerged. *)
From Verif Require Export NodeKeysFacts OwnLeafSamples.

Definition commit86 : bytes := Eval vm_compute in
  getOr [] (@sendPublic toy (snd w81c) 2 (BCommit (mkCommit [PorProposal (PAdd (kpp_public erin))] None)) (str "s") (str "tag")).
Definition history86 : list (bytes * gotime) := [(other81, clock); (prop81, clock); (commit81, clock); (commit86, clock)].

Lemma node_keys_example :
  @obtained toy qa /\ exists n ac c u,
    parent_at (gr_value (after (C := toy) qa history86)) 3 = Some n /\ pn_unmergedLeaves n = [3] /\
    @accepts_commit toy (after (C := toy) qa (firstn 2 history86)) commit81 clock ac c (after (C := toy) qa (firstn 3 history86)) /\
    option_map up_nodes (c_path c) = Some u /\ In (pn_encryptionKey n) (map upn_encryptionKey u) /\
    leaf_at (gr_value (after (C := toy) qa (firstn 3 history86))) 3 = None /\
    leaf_at (gr_value (after (C := toy) qa history86)) 3 = Some (kp_leafNode (kpp_public erin)) /\
    parent_at (gr_value (after (C := toy) qa history86)) 1 = parent_at (gr_value (after (C := toy) qa (firstn 3 history86))) 1.
Proof.
  split; [exact qa_obtained|].
  assert (E2 : after (C := toy) qa (firstn 2 history86) = qa1) by (vm_compute; reflexivity).
  assert (E3 : after (C := toy) qa (firstn 3 history86) = snd w81) by (vm_compute; reflexivity).
  rewrite E2, E3. eexists. exists (publicContent (fst (fst w81))), (snd (fst w81)). eexists. splits.
  - vm_compute. reflexivity.
  - vm_compute. reflexivity.
  - apply acceptedPublic_commit. rewrite w81_accepted. now destruct w81 as [[? ?] ?].
  - vm_compute. reflexivity.
  - vm_compute. tauto.
  - vm_compute. reflexivity.
  - vm_compute. reflexivity.
  - vm_compute. reflexivity.
Qed.
Lemma over_example : over 3 2 /\ over 5 2 /\ ~ over 1 2.
Proof.
  splits.
  - exists 2%nat, []. splits; [reflexivity|reflexivity|]. exists true, [false]. reflexivity.
  - exists 2%nat, [true]. splits; [reflexivity|reflexivity|]. exists false, []. reflexivity.
  - intros H. change 1 with (number 2 [false]) in H. apply over_at in H; [|unfold in_tree; cbn; auto]. destruct H as (_ & b & s & E). discriminate.
Qed.
