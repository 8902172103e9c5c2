(** Alice and Carol accept Bob's commit with an update path. *)
From Verif Require Export SplitFacts HoldSamples.

Definition qa' : group := Eval vm_compute in hear qa w50raw.
Definition qc' : group := Eval vm_compute in hear qc w50raw.
Lemma both50 : @both_accept toy qa qc [w50raw] qa' qc'.
Proof.
  apply (both_next (C := toy) qa qc [] qa qc w50raw clock clock None None).
  - constructor.
  - vm_compute. reflexivity.
  - vm_compute. reflexivity.
Qed.
Lemma split_example :
  @obtained toy qa /\ @obtained toy qc /\ agree qa qc /\ gr_pending qc = gr_pending qa /\ @both_accept toy qa qc [w50raw] qa' qc' /\
  (exists ac c up, @accepts_commit toy qa w50raw clock ac c qa' /\ c_path c = Some up /\ lenN (up_nodes up) = 2) /\
  gr_myLeafIndex qa' <> gr_myLeafIndex qc' /\ gr_epochSecret qa' <> gr_epochSecret qa.
Proof.
  splits.
  - exact qa_obtained.
  - exact qc_obtained.
  - repeat split; vm_compute; reflexivity.
  - reflexivity.
  - exact both50.
  - exists (publicContent (fst (fst w50))), (snd (fst w50)), (fst (fst made50r)). splits.
    + replace qa' with (snd w50) by (vm_compute; reflexivity). apply acceptedPublic_commit. rewrite w50_accepted. now destruct w50 as [[? ?] ?].
    + exact path50r.
    + vm_compute. reflexivity.
  - vm_compute. discriminate.
  - vm_compute. discriminate.
Qed.
