(** Alice and Bob say the same, and Carol hears it. *)
From Verif Require Export AnonFacts EndSamples CreateSamples.

Definition yesA : bytes := Eval vm_compute in getOr [] (@createApplicationMessage toy ga (str "yes") [] (str "abcd")).
Definition yesB : bytes := Eval vm_compute in getOr [] (@createApplicationMessage toy gb (str "yes") [] (str "efgh")).
Lemma anon_example : @obtained toy ga /\ @obtained toy gb /\ @can_sign toy ga /\ @can_sign toy gb /\ same_epoch ga gc /\ same_epoch gb gc /\
  gr_myLeafIndex ga <> gr_myLeafIndex gb /\
  @createApplicationMessage toy ga (str "yes") [] (str "abcd") = Ok yesA /\ @createApplicationMessage toy gb (str "yes") [] (str "efgh") = Ok yesB /\
  @unmarshalAndProcessMessage toy gc yesA clock = (gc, Ok (Some (str "yes"))) /\ @unmarshalAndProcessMessage toy gb yesB clock = (gb, Ok (Some (str "yes"))).
Proof.
  split; [exact ga_obtained|]. split; [exact gb_obtained|]. split; [exact ga_signs|]. split; [exact gb_signs|].
  split; [split; [vm_compute; reflexivity|split; vm_compute; reflexivity]|]. split; [split; [vm_compute; reflexivity|split; vm_compute; reflexivity]|].
  split; [vm_compute; discriminate|]. split; [vm_compute; reflexivity|]. split; [vm_compute; reflexivity|]. split; vm_compute; reflexivity.
Qed.
