(** Alice and Carol follow Bob's commit, and a message that Carol sends then. *)
From Verif Require Export FollowAllFacts UnmergedGroupFacts SplitSamples.

Definition hi80 : bytes := Eval vm_compute in getOr [] (@createApplicationMessage toy qc' (str "hi") (str "s") (map n2b [1; 2; 3; 4])).
Definition l80 : list (bytes * gotime) := [(w50raw, clock); (hi80, clock)].

Lemma commit80 : @unmarshalAndProcessMessage toy qa w50raw clock = (qa', Ok None).
Proof. vm_compute. reflexivity. Qed.
Lemma hears80 : @unmarshalAndProcessMessage toy qa' hi80 clock = (qa', Ok (Some (str "hi"))).
Proof. vm_compute. reflexivity. Qed.

Lemma accepted50 : @accepts_commit toy qa w50raw clock (publicContent (fst (fst w50))) (snd (fst w50)) qa'.
Proof. replace qa' with (snd w50) by (vm_compute; reflexivity). apply acceptedPublic_commit. rewrite w50_accepted. now destruct w50 as [[? ?] ?]. Qed.
Lemma commits50 : commits qa 1 (snd (fst w50)) [(PRemove 3, 1)].
Proof. apply (proj1 (resolveProposals_spec _ _ _ _)). vm_compute. reflexivity. Qed.
Lemma keys50 me : In me [0; 2] -> option_map ln_encryptionKey (leaf_at t50r me) = option_map ln_encryptionKey (leaf_at (gr_value qa) me).
Proof. intros [<-|[<-|[]]]; vm_compute; reflexivity. Qed.

Lemma leads80 : @leads toy [0; 2] qa l80.
Proof.
  apply (leads_next (C := toy) [0; 2] qa w50raw clock None qa').
  - exact commit80.
  - intros ac c li ps A Hs Hc. pose proof accepted50 as (A1 & A2 & _). destruct A as (B1 & B2 & _).
    assert (ac = publicContent (fst (fst w50))) by exact (carries_fun qa w50raw _ _ B1 A1). subst ac.
    assert (Ec : BCommit c = BCommit (snd (fst w50))) by (rewrite <- B2; exact A2). assert (I1 : forall x y, BCommit x = BCommit y -> x = y) by congruence. apply I1 in Ec. subst c.
    assert (Es : SMember li = SMember 1) by (rewrite <- Hs; reflexivity). assert (I2 : forall x y, SMember x = SMember y -> x = y) by congruence. apply I2 in Es. subst li.
    apply (proj2 (resolveProposals_spec _ _ _ _)) in Hc. pose proof (proj2 (resolveProposals_spec _ _ _ _) commits50) as Hc2.
    assert (Ep : Ok ps = Ok [(PRemove 3, 1)]) by (rewrite <- Hc; exact Hc2). apply Ok_inj in Ep. subst ps.
    unfold can_be_followed. rewrite path50r. exists 2%nat, t50r, []. split.
    + replace qa' with (snd w50) by (vm_compute; reflexivity). exact prescribed50r.
    + intros me Hm. splits.
      * destruct Hm as [<-|[<-|[]]]; vm_compute; discriminate.
      * exact (keys50 me Hm).
      * intros u a [].
  - apply (leads_next (C := toy) [0; 2] qa' hi80 clock (Some (str "hi")) qa').
    + exact hears80.
    + intros ac c li ps A. destruct A as (_ & _ & E). rewrite hears80 in E. discriminate.
    + constructor.
Qed.
Lemma follow_all_example :
  crypto_ok toy /\ @receives toy qa l80 [None; Some (str "hi")] qa' /\ @leads toy [0; 2] qa l80 /\ @obtained toy qa /\ @holds_its_keys toy qa /\
  @obtained toy qc /\ agree qa qc /\ gr_pending qc = gr_pending qa /\ @holds_its_keys toy qc /\
  gr_myLeafIndex qa = 0 /\ gr_myLeafIndex qc = 2 /\ gc_epoch (gr_context qa') = gc_epoch (gr_context qa) + 1.
Proof.
  splits.
  - exact toy_ok.
  - econstructor; [exact commit80|]. econstructor; [exact hears80|]. constructor.
  - exact leads80.
  - exact qa_obtained.
  - exact qa_holds.
  - exact qc_obtained.
  - repeat split; vm_compute; reflexivity.
  - reflexivity.
  - exact qc_holds.
  - reflexivity.
  - reflexivity.
  - vm_compute. reflexivity.
Qed.

Lemma unmerged_example : @createGroup toy (str "grp") alice (zeros 32) = Ok g0 /\
  @obtained toy qa /\ @receives toy qa l80 [None; Some (str "hi")] qa' /\ strong_rule (gr_value qa) /\
  exists n, at_path 2 (gr_value qa') [] = Some (NParent n).
Proof.
  splits.
  - vm_compute. reflexivity.
  - exact qa_obtained.
  - apply follow_all_example.
  - apply (leaves_only_strong 2); [apply shapedb_ok; [unfold fits; lia|vm_compute; reflexivity]|].
    intros i p. vm_compute. do 8 (destruct i as [|i]; [discriminate|]). destruct i; discriminate.
  - eexists. vm_compute. reflexivity.
Qed.
