(** Bob removes Carol and Dave, in one order or in the other. *)
From Verif Require Export OrderFacts ReferenceSamples.
From Coq Require Permutation.

Definition removing (ps : list proposal) : bytes :=
  getOr [] (@sendPathCommit toy qb 1 (map PorProposal ps) [] (pad 32 (str "new leaf")) [] (pad 32 (str "seed")) (str "r")).
Definition commit102 : bytes := Eval vm_compute in removing [PRemove 2; PRemove 3].
Definition commit102r : bytes := Eval vm_compute in removing [PRemove 3; PRemove 2].
Definition w102 := Eval vm_compute in getSome (noMessage, noCommit, noGroup) (acceptedPublic qa commit102).
Definition w102r := Eval vm_compute in getSome (noMessage, noCommit, noGroup) (acceptedPublic qa commit102r).
Lemma w102_accepted : acceptedPublic qa commit102 = Some w102.
Proof. vm_compute. reflexivity. Qed.
Lemma w102r_accepted : acceptedPublic qa commit102r = Some w102r.
Proof. vm_compute. reflexivity. Qed.

Lemma order_example :
  @obtained toy qa /\
  (exists ac c, @accepts_commit toy qa commit102 clock ac c (snd w102) /\ fc_sender (ac_content ac) = SMember 1 /\ commits qa 1 c [(PRemove 2, 1); (PRemove 3, 1)]) /\
  (exists ac c, @accepts_commit toy qa commit102r clock ac c (snd w102r) /\ fc_sender (ac_content ac) = SMember 1 /\ commits qa 1 c [(PRemove 3, 1); (PRemove 2, 1)]) /\
  reordered [(PRemove 2, 1); (PRemove 3, 1)] [(PRemove 3, 1); (PRemove 2, 1)] /\
  gr_value (snd w102) = gr_value (snd w102r) /\ gr_context (snd w102) <> gr_context (snd w102r) /\ gr_value (snd w102) <> gr_value qa /\ lenN (gr_value (snd w102)) = 3.
Proof.
  splits.
  - exact qa_obtained.
  - exists (publicContent (fst (fst w102))), (snd (fst w102)). splits.
    + apply acceptedPublic_commit. rewrite w102_accepted. now destruct w102 as [[? ?] ?].
    + vm_compute. reflexivity.
    + apply (proj1 (resolveProposals_spec _ _ _ _)). vm_compute. reflexivity.
  - exists (publicContent (fst (fst w102r))), (snd (fst w102r)). splits.
    + apply acceptedPublic_commit. rewrite w102r_accepted. now destruct w102r as [[? ?] ?].
    + vm_compute. reflexivity.
    + apply (proj1 (resolveProposals_spec _ _ _ _)). vm_compute. reflexivity.
  - unfold reordered. splits; [exact (Permutation.perm_nil _)|exact (Permutation.perm_swap 3 2 [])|reflexivity].
  - vm_compute. reflexivity.
  - vm_compute. discriminate.
  - vm_compute. discriminate.
  - vm_compute. reflexivity.
Qed.
