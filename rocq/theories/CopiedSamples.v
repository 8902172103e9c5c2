(** Someone has copied Alice's secrets, but not their private keys, when Bob
    invites Dave. *)
From Verif Require Export CopiedFacts HoldSamples CreateSamples.

Definition withoutKeys (g : group) : group :=
  mkGroup (gr_heap g) (gr_tree g) (gr_context g) (gr_interimTranscriptHash g) (gr_pskSecret g) (gr_epochSecret g) (gr_initSecret g)
    (gr_myLeafIndex g) (repeat None (length (gr_tree g))) [] [].
Lemma withoutKeys_copied g : @obtained toy g -> copied g (withoutKeys g).
Proof.
  intros O. split; [unfold agree; splits; reflexivity|]. split.
  - split; [exact (proj1 (sane_consistent _ (obtained_sane _ O)))|]. cbn. apply repeat_length.
  - split; [|reflexivity]. intros key Hin. cbn [withoutKeys gr_privTree] in Hin. apply repeat_spec in Hin. discriminate Hin.
Qed.
Definition thief : group := withoutKeys ga.
Definition thief' : group := Eval vm_compute in hear thief (snd (snd secondWelcome)).
Definition forAll : bytes := Eval vm_compute in getOr [] (@createApplicationMessage toy qb (str "for all four") [] (str "abcd")).
Lemma dave_by_invitation : @only_invitations toy ga qa.
Proof.
  apply (@invitation toy ga ga gb [kpp_public dave] [] [] [str "z"] (str "efgh") (fst secondWelcome) (fst (snd secondWelcome)) (snd (snd secondWelcome)) clock qa).
  - constructor.
  - exact gb_obtained.
  - exact gb_signs.
  - unfold agree. split; [vm_compute; reflexivity|]. split; [vm_compute; reflexivity|]. split; [vm_compute; reflexivity|]. split; [vm_compute; reflexivity|]. split; vm_compute; reflexivity.
  - reflexivity.
  - exact (proj1 (proj1 dave_may_join)).
  - exact (proj1 (proj2 (proj1 dave_may_join))).
  - constructor; [intros []|constructor].
  - vm_compute. reflexivity.
  - vm_compute. reflexivity.
Qed.
Lemma copied_example : @obtained toy ga /\ copied ga thief /\ @only_invitations toy ga qa /\ gr_epochSecret qa <> gr_epochSecret ga /\
  @unmarshalAndProcessMessage toy thief (snd (snd secondWelcome)) clock = (thief', Ok None) /\ agree qa thief' /\
  @createApplicationMessage toy qb (str "for all four") [] (str "abcd") = Ok forAll /\
  @unmarshalAndProcessMessage toy thief' forAll clock = (thief', Ok (Some (str "for all four"))).
Proof.
  split; [exact ga_obtained|]. split; [exact (withoutKeys_copied ga ga_obtained)|]. split; [exact dave_by_invitation|].
  split; [vm_compute; discriminate|]. split; [vm_compute; reflexivity|].
  split; [unfold agree; split; [vm_compute; reflexivity|]; split; [vm_compute; reflexivity|]; split; [vm_compute; reflexivity|]; split; [vm_compute; reflexivity|]; split; vm_compute; reflexivity|].
  split; vm_compute; reflexivity.
Qed.
Lemma healed_example : copied qa (withoutKeys qa) /\
  (exists ac c g', @accepts_commit toy qa w50raw clock ac c g' /\ c_path c <> None) /\
  snd (@unmarshalAndProcessMessage toy (withoutKeys qa) w50raw clock) = Err "mls: no private key found".
Proof.
  split; [exact (withoutKeys_copied qa qa_obtained)|]. split.
  - exists (publicContent (fst (fst w50))), (snd (fst w50)), (snd w50).
    split; [apply acceptedPublic_commit; rewrite w50_accepted; now destruct w50 as [[? ?] ?]|]. vm_compute. discriminate.
  - vm_compute. reflexivity.
Qed.
