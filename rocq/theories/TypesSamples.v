(** Alice, Bob and Carol hold well-formed values. *)
From Verif Require Export TypesFacts ViewSamples.
From Verif Require Import CodecFacts.

Lemma kp_by_coding k : unmarshal getKeyPackage (getOr [] (putKeyPackage k)) = Ok k -> wf_keyPackage k.
Proof.
  unfold unmarshal. intros H. destruct (getKeyPackage (getOr [] (putKeyPackage k))) as [[x|?|?|] rest] eqn:E; try discriminate.
  apply keyPackage_CAN in E as [Hw _]. destruct rest; [|discriminate]. apply Ok_inj in H. now subst.
Qed.
Lemma lawful_hear g raw : @lawful toy g -> @lawful toy (hear g raw).
Proof. intros H. unfold hear. destruct (unmarshalAndProcessMessage g raw clock) as [g' r] eqn:E. exact (lawful_message g raw clock g' r H E). Qed.
Lemma ga_lawful : @lawful toy ga.
Proof.
  assert (H0 : @lawful toy g0).
  { apply (lawful_created (C := toy) (str "grp") alice (zeros 32)); [apply kp_by_coding|]; vm_compute; reflexivity. }
  assert (H : @lawful toy (fst firstWelcome)).
  { apply (lawful_welcome (C := toy) g0 [kpp_public bob; kpp_public carol] [] [] [str "x"; str "y"] (str "abcd") _ (Ok (snd firstWelcome))); [|exact H0|vm_compute; reflexivity].
    constructor; [|constructor; [|constructor]]; apply kp_by_coding; vm_compute; reflexivity. }
  apply (lawful_hear _ (snd (snd firstWelcome))) in H. replace ga with (hear (fst firstWelcome) (snd (snd firstWelcome))); [exact H|vm_compute; reflexivity].
Qed.
Lemma gc_lawful : @lawful toy gc.
Proof. apply (lawful_joined (C := toy) (fst (snd firstWelcome)) carol clock). vm_compute. reflexivity. Qed.
Lemma qa_lawful : @lawful toy qa.
Proof. replace qa with (hear ga (snd (snd secondWelcome))); [exact (lawful_hear _ _ ga_lawful)|vm_compute; reflexivity]. Qed.
Lemma qc_lawful : @lawful toy qc.
Proof. replace qc with (hear gc (snd (snd secondWelcome))); [exact (lawful_hear _ _ gc_lawful)|vm_compute; reflexivity]. Qed.

Lemma types_example :
  crypto_ok toy /\ @lawful toy qa /\ @lawful toy qc /\ @lawful toy qa' /\ @lawful toy qc' /\
  @just_entered toy qa' /\ @just_entered toy qc' /\ gr_epochSecret qa' = gr_epochSecret qc' /\ gr_myLeafIndex qa' <> gr_myLeafIndex qc' /\
  (exists x pn, nth_error (gr_value qa') x = Some (Some (NParent pn))) /\ gc_epoch (gr_context qa') <> 0.
Proof.
  pose proof view_example as (E1 & E2 & _ & _ & _ & E3 & E4 & _). splits; auto.
  - exact toy_ok.
  - exact qa_lawful.
  - exact qc_lawful.
  - exact (lawful_message (C := toy) qa w50raw clock qa' _ qa_lawful (proj2 (proj2 qa_commit))).
  - exact (lawful_message (C := toy) qc w50raw clock qc' _ qc_lawful (proj2 (proj2 qc_commit))).
  - exists 3%nat. vm_compute. eauto.
  - vm_compute. discriminate.
Qed.
