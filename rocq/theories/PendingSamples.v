(** Bob's commit of [ReferenceSamples], by members who remember other proposals
    besides; and a commit without a path: Carol proposes to add Frank. *)
From Verif Require Export PendingFacts ReferenceSamples CrashSamples.

Definition twice : list pendingProposal := [pp81; pp81].
Definition c81 : commit := snd (fst w81).
Lemma refers81 : forall ac c, @carries toy qa1 commit81 ac -> fc_body (ac_content ac) = BCommit c -> c = c81.
Proof.
  intros ac c H E. destruct H as [m H|m sds sd secret pc H _ _ _ _].
  - assert (Em : unmarshal getMlsMessage commit81 = Ok (MPublic (fst (fst w81)))) by (vm_compute; reflexivity).
    assert (Inj : forall x y, Ok (MPublic x) = Ok (MPublic y) -> x = y) by congruence. rewrite Em in H. apply Inj in H. subst m.
    assert (Eb : fc_body (ac_content (publicContent (fst (fst w81)))) = BCommit c81) by (vm_compute; reflexivity).
    assert (Inc : forall x y, BCommit x = BCommit y -> x = y) by congruence. apply Inc. rewrite <- Eb. symmetry. exact E.
  - assert (Em : unmarshal getMlsMessage commit81 = Ok (MPublic (fst (fst w81)))) by (vm_compute; reflexivity).
    exfalso. rewrite Em in H. discriminate H.
Qed.
Lemma same81 : same_references c81 (gr_pending qa1) twice.
Proof.
  intros ref Hr p s. assert (E : ref = pp_ref pp81).
  { assert (Ec : c_proposals c81 = [PorReference (pp_ref pp81)]) by (vm_compute; reflexivity). rewrite Ec in Hr. destruct Hr as [Hr|[]]. congruence. }
  subst ref. rewrite !looked_up_iff.
  assert (E1 : find (fun pp => bytes_eqb (pp_ref pp) (pp_ref pp81)) (gr_pending qa1) = Some pp81) by (vm_compute; reflexivity).
  assert (E2 : find (fun pp => bytes_eqb (pp_ref pp) (pp_ref pp81)) twice = Some pp81) by (vm_compute; reflexivity).
  now rewrite E1, E2.
Qed.
Lemma pending_example :
  (forall ac c, @carries toy qa1 commit81 ac -> fc_body (ac_content ac) = BCommit c -> same_references c (gr_pending qa1) twice) /\
  (exists ac, @carries toy qa1 commit81 ac /\ fc_body (ac_content ac) = BCommit c81) /\
  gr_pending qa1 <> twice /\ c_proposals c81 = [PorReference (pp_ref pp81)] /\
  @unmarshalAndProcessMessage toy qa1 commit81 clock = (snd w81, Ok None) /\
  @unmarshalAndProcessMessage toy (withPending qa1 twice) commit81 clock = (snd w81, Ok None) /\
  @unmarshalAndProcessMessage toy (withPending qa1 []) commit81 clock = (withPending qa1 [], Err "mls: cannot find proposal reference").
Proof.
  splits.
  - intros ac c H E. rewrite (refers81 ac c H E). exact same81.
  - exists (publicContent (fst (fst w81))). split; [apply carries_public|]; vm_compute; reflexivity.
  - vm_compute. discriminate.
  - vm_compute. reflexivity.
  - vm_compute. reflexivity.
  - vm_compute. reflexivity.
  - vm_compute. reflexivity.
Qed.

Definition frank : keyPairPackage := Eval vm_compute in getOr noKeys (person 1 "frank").
Definition prop101 : bytes := Eval vm_compute in getOr [] (@sendPublic toy qc 2 (BProposal (PAdd (kpp_public frank))) (str "s") []).
Definition qc2 : group := Eval vm_compute in hear qc prop101.
Definition qa2 : group := Eval vm_compute in hear qa0 prop101.
Definition pp101 : pendingProposal := Eval vm_compute in hd (mkPendingProposal [] (PRemove 0) 0) (gr_pending qc2).
Definition c101 : commit := mkCommit [PorReference (pp_ref pp101)] None.
Definition commit101 : bytes := Eval vm_compute in getOr [] (@sendPublic toy qb 1 (BCommit c101) (str "s") []).
Definition m101 : publicMessage := Eval vm_compute in publicOf commit101.
Lemma refers101 g : forall ac c, @carries toy g commit101 ac -> fc_body (ac_content ac) = BCommit c -> c = c101.
Proof.
  assert (Em : unmarshal getMlsMessage commit101 = Ok (MPublic m101)) by (vm_compute; reflexivity).
  intros ac c H E. destruct H as [m H|m sds sd secret pc H _ _ _ _].
  - assert (Inj : forall x y, Ok (MPublic x) = Ok (MPublic y) -> x = y) by congruence. rewrite Em in H. apply Inj in H. subst m.
    assert (Eb : fc_body (ac_content (publicContent m101)) = BCommit c101) by (vm_compute; reflexivity).
    assert (Inc : forall x y, BCommit x = BCommit y -> x = y) by congruence. apply Inc. rewrite <- Eb. symmetry. exact E.
  - exfalso. rewrite Em in H. discriminate H.
Qed.
Lemma aside101a : @aside toy qa0 qa2.
Proof. apply (aside_accepted (C := toy) qa0 prop101 clock None qa2); vm_compute; reflexivity. Qed.
Lemma aside101c : @aside toy qc qc2.
Proof. apply (aside_accepted (C := toy) qc prop101 clock None qc2); vm_compute; reflexivity. Qed.
Lemma qa2_obtained : @obtained toy qa2.
Proof. exact (proj1 (aside_keeps (C := toy) _ _ (proj1 (aside_keeps (C := toy) _ _ qa_obtained aside81a)) aside101a)). Qed.
Lemma qc2_obtained : @obtained toy qc2.
Proof. exact (proj1 (aside_keeps (C := toy) _ _ qc_obtained aside101c)). Qed.
Lemma members_example :
  @obtained toy qa2 /\ @obtained toy qc2 /\ agree qa2 qc2 /\ gr_pending qa2 <> gr_pending qc2 /\
  (forall ac c, @carries toy qa2 commit101 ac -> fc_body (ac_content ac) = BCommit c -> c_path c = None /\ same_references c (gr_pending qa2) (gr_pending qc2)) /\
  snd (@unmarshalAndProcessMessage toy qa2 commit101 clock) = Ok None /\ snd (@unmarshalAndProcessMessage toy qc2 commit101 clock) = Ok None /\
  gr_value (fst (@unmarshalAndProcessMessage toy qa2 commit101 clock)) <> gr_value qa2.
Proof.
  splits.
  - exact qa2_obtained.
  - exact qc2_obtained.
  - repeat split; vm_compute; reflexivity.
  - vm_compute. discriminate.
  - intros ac c H E. rewrite (refers101 qa2 ac c H E). split; [reflexivity|].
    intros ref Hr p s. destruct Hr as [Hr|[]]. assert (Er : ref = pp_ref pp101) by congruence. subst ref. rewrite !looked_up_iff.
    assert (E1 : find (fun pp => bytes_eqb (pp_ref pp) (pp_ref pp101)) (gr_pending qa2) = Some pp101) by (vm_compute; reflexivity).
    assert (E2 : find (fun pp => bytes_eqb (pp_ref pp) (pp_ref pp101)) (gr_pending qc2) = Some pp101) by (vm_compute; reflexivity).
    now rewrite E1, E2.
  - vm_compute. reflexivity.
  - vm_compute. reflexivity.
  - vm_compute. discriminate.
Qed.
