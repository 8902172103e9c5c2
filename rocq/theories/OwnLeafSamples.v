(** Bob's commit changes Bob's leaf and removes Dave's, and leaves the others. *)
From Verif Require Export OwnLeafFacts ReferenceSamples.

Lemma own_leaf_example :
  @obtained toy qa /\ gr_value (after (C := toy) qa [(other81, clock); (prop81, clock); (commit81, clock)]) = gr_value (snd w81) /\
  exists ac c l0 l1 l1' l2 l3, @accepts_commit toy qa1 commit81 clock ac c (snd w81) /\ fc_sender (ac_content ac) = SMember 1 /\
    map (leaf_at (gr_value qa1)) [0; 1; 2; 3] = [Some l0; Some l1; Some l2; Some l3] /\
    map (leaf_at (gr_value (snd w81))) [0; 1; 2; 3] = [Some l0; Some l1'; Some l2; None] /\ l1' <> l1.
Proof.
  split; [exact qa_obtained|]. split; [vm_compute; reflexivity|]. exists (publicContent (fst (fst w81))), (snd (fst w81)). do 5 eexists. splits.
  - apply acceptedPublic_commit. rewrite w81_accepted. now destruct w81 as [[? ?] ?].
  - vm_compute. reflexivity.
  - vm_compute. reflexivity.
  - vm_compute. reflexivity.
  - vm_compute. discriminate.
Qed.
