(** Carol proposes to remove Dave, Alice also hears a proposal of Bob that Carol
    does not hear, and Bob commits Carol's proposal by its reference. *)
From Verif Require Export ReferenceFacts SplitSamples Samples.

Definition prop81 : bytes := Eval vm_compute in getOr [] (@sendPublic toy qc 2 (BProposal (PRemove 3)) (str "s") []).
Definition other81 : bytes := Eval vm_compute in getOr [] (@sendPublic toy qb 1 (BProposal (PRemove 2)) (str "s") []).
Definition qb1 : group := Eval vm_compute in hear qb prop81.
Definition qc1 : group := Eval vm_compute in hear qc prop81.
Definition qa0 : group := Eval vm_compute in hear qa other81.
Definition qa1 : group := Eval vm_compute in hear qa0 prop81.
Definition pp81 : pendingProposal := Eval vm_compute in hd (mkPendingProposal [] (PRemove 0) 0) (gr_pending qc1).
Definition commit81 : bytes := Eval vm_compute in
  getOr [] (@sendPathCommit toy qb1 1 [PorReference (pp_ref pp81)] [] (pad 32 (str "new leaf")) [] (pad 32 (str "seed")) (str "r")).
Definition w81 := Eval vm_compute in getSome (noMessage, noCommit, noGroup) (acceptedPublic qa1 commit81).
Lemma w81_accepted : acceptedPublic qa1 commit81 = Some w81.
Proof. vm_compute. reflexivity. Qed.
Definition w81c := Eval vm_compute in getSome (noMessage, noCommit, noGroup) (acceptedPublic qc1 commit81).
Lemma w81c_accepted : acceptedPublic qc1 commit81 = Some w81c.
Proof. vm_compute. reflexivity. Qed.

Lemma aside81a : @aside toy qa qa0.
Proof. apply (aside_accepted (C := toy) qa other81 clock None qa0); vm_compute; reflexivity. Qed.
Lemma aside81b : @aside toy qa0 qa1.
Proof. apply (aside_accepted (C := toy) qa0 prop81 clock None qa1); vm_compute; reflexivity. Qed.
Lemma aside81c : @aside toy qc qc1.
Proof. apply (aside_accepted (C := toy) qc prop81 clock None qc1); vm_compute; reflexivity. Qed.
Lemma qa1_obtained : @obtained toy qa1.
Proof. exact (proj1 (aside_keeps (C := toy) _ _ (proj1 (aside_keeps (C := toy) _ _ qa_obtained aside81a)) aside81b)). Qed.

Lemma reference_example :
  @obtained toy qa1 /\ In pp81 (gr_pending qa1) /\ lenN (gr_pending qa1) = 2 /\
  exists ac c, @accepts_commit toy qa1 commit81 clock ac c (snd w81) /\ fc_sender (ac_content ac) = SMember 1 /\
    commits qa1 1 c [(PRemove 3, 2)] /\ c_proposals c = [PorReference (pp_ref pp81)].
Proof.
  splits.
  - exact qa1_obtained.
  - right. left. vm_compute. reflexivity.
  - vm_compute. reflexivity.
  - exists (publicContent (fst (fst w81))), (snd (fst w81)). splits.
    + apply acceptedPublic_commit. rewrite w81_accepted. now destruct w81 as [[? ?] ?].
    + vm_compute. reflexivity.
    + apply (proj1 (resolveProposals_spec _ _ _ _)). vm_compute. reflexivity.
    + vm_compute. reflexivity.
Qed.

Lemma same_commits_example :
  @obtained toy qa /\ @obtained toy qc /\ agree qa qc /\ @same_commits toy qa qc (snd w81) (snd w81c) /\
  gr_pending qa1 <> gr_pending qc1 /\ gr_epochSecret (snd w81) <> gr_epochSecret qa /\ gr_value (snd w81) <> gr_value qa.
Proof.
  splits.
  - exact qa_obtained.
  - exact qc_obtained.
  - repeat split; vm_compute; reflexivity.
  - apply (commits_both (C := toy) qa qc qa1 qc1 commit81 clock clock (publicContent (fst (fst w81))) (publicContent (fst (fst w81c))) (snd (fst w81)) (snd (fst w81c))).
    + apply (commits_left (C := toy) qa qc qa0 qc1 qa1); [|exact aside81b]. apply (commits_left (C := toy) qa qc qa qc1 qa0); [|exact aside81a].
      apply (commits_right (C := toy) qa qc qa qc qc1); [constructor|exact aside81c].
    + apply acceptedPublic_commit. rewrite w81_accepted. now destruct w81 as [[? ?] ?].
    + apply acceptedPublic_commit. rewrite w81c_accepted. now destruct w81c as [[? ?] ?].
  - vm_compute. discriminate.
  - vm_compute. discriminate.
  - vm_compute. discriminate.
Qed.

Definition publicOf (raw : bytes) : publicMessage := match unmarshal getMlsMessage raw with Ok (MPublic m) => m | _ => noMessage end.
Definition prop81m : publicMessage := Eval vm_compute in publicOf prop81.
Definition other81m : publicMessage := Eval vm_compute in publicOf other81.
Lemma carries81 g raw m g' : unmarshal getMlsMessage raw = Ok (MPublic m) -> @unmarshalAndProcessMessage toy g raw clock = (g', Ok None) ->
  wf_authenticatedContent (publicContent m).
Proof.
  intros Em H. pose proof (acted_on (C := toy) g raw clock) as Ga. rewrite H in Ga. destruct Ga as (ac & Hc & _); [auto|].
  pose proof (carries_content_wf (C := toy) _ _ _ Hc) as Wf. destruct Hc as [m' Hm|m' sds sd secret pc Hm]; [|congruence].
  assert (Inj : forall x y, Ok (MPublic x) = Ok (MPublic y) -> x = y) by congruence. rewrite Em in Hm. apply Inj in Hm. now subst m'.
Qed.
Lemma binding_example :
  wf_authenticatedContent (publicContent prop81m) /\ wf_authenticatedContent (publicContent other81m) /\ publicContent prop81m <> publicContent other81m /\
  (exists r, @generateProposalRef toy 1 (publicContent prop81m) = Ok r) /\ (exists r, @generateProposalRef toy 1 (publicContent other81m) = Ok r) /\
  (exists r, @keyPackageRef toy sampleKP = Ok r) /\ wf_keyPackage sampleKP.
Proof.
  splits.
  - apply (carries81 qc prop81 prop81m qc1); vm_compute; reflexivity.
  - apply (carries81 qa other81 other81m qa0); vm_compute; reflexivity.
  - vm_compute. discriminate.
  - eexists. vm_compute. reflexivity.
  - eexists. vm_compute. reflexivity.
  - eexists. vm_compute. reflexivity.
  - exact sampleKP_wf.
Qed.
