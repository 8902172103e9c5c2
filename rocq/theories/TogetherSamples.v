(** Carol adds Erin and Frank, in one commit or in two. *)
From Verif Require Export TogetherFacts HoldSamples.
From Coq Require Import Lia.

Definition ra : group := Eval vm_compute in hear qa w50raw.
Definition rc : group := Eval vm_compute in hear qc w50raw.
Lemma ra_obtained : @obtained toy ra.
Proof. replace ra with (hear qa w50raw); [exact (obtained_hear _ _ qa_obtained)|vm_compute; reflexivity]. Qed.
Lemma ra_rc : agree ra rc.
Proof. unfold agree. splits; vm_compute; reflexivity. Qed.

Definition erin : keyPairPackage := Eval vm_compute in getOr noKeys (person 1 "erin").
Definition frank : keyPairPackage := Eval vm_compute in getOr noKeys (person 1 "frank").
Definition adding (g : group) (ks : list keyPairPackage) : bytes :=
  getOr [] (@sendPublic toy g 2 (BCommit (mkCommit (map (fun k => PorProposal (PAdd (kpp_public k))) ks) None)) (str "s") []).
Definition commit118 : bytes := Eval vm_compute in adding rc [erin; frank].
Definition commit118a : bytes := Eval vm_compute in adding rc [erin].
Definition commit118b : bytes := Eval vm_compute in adding (hear rc commit118a) [frank].
Definition w118 := Eval vm_compute in getSome (noMessage, noCommit, noGroup) (acceptedPublic ra commit118).
Definition w118a := Eval vm_compute in getSome (noMessage, noCommit, noGroup) (acceptedPublic ra commit118a).
Definition w118b := Eval vm_compute in getSome (noMessage, noCommit, noGroup) (acceptedPublic (snd w118a) commit118b).
Lemma w118_accepted : acceptedPublic ra commit118 = Some w118.
Proof. vm_compute. reflexivity. Qed.
Lemma w118a_accepted : acceptedPublic ra commit118a = Some w118a.
Proof. vm_compute. reflexivity. Qed.
Lemma w118b_accepted : acceptedPublic (snd w118a) commit118b = Some w118b.
Proof. vm_compute. reflexivity. Qed.

Definition add (k : keyPairPackage) : proposal * N := (PAdd (kpp_public k), 2).
Lemma together_example :
  @obtained toy ra /\
  (exists ac c, @accepts_commit toy ra commit118a clock ac c (snd w118a) /\ fc_sender (ac_content ac) = SMember 2 /\ commits ra 2 c [add erin] /\ c_path c = None) /\
  (exists ac c, @accepts_commit toy (snd w118a) commit118b clock ac c (snd w118b) /\ fc_sender (ac_content ac) = SMember 2 /\ commits (snd w118a) 2 c [add frank] /\ c_path c = None) /\
  (exists ac c, @accepts_commit toy ra commit118 clock ac c (snd w118) /\ fc_sender (ac_content ac) = SMember 2 /\ commits ra 2 c [add erin; add frank] /\ c_path c = None) /\
  in_turn [add erin] [add frank] /\ ~ in_turn [add erin] [(PRemove 1, 2)] /\ gr_value (snd w118) = gr_value (snd w118b) /\
  gc_epoch (gr_context (snd w118b)) = gc_epoch (gr_context (snd w118)) + 1 /\ lenN (gr_value (snd w118)) = 15 /\
  (exists p, nth_error (gr_value (snd w118)) 3 = Some (Some (NParent p)) /\ pn_unmergedLeaves p = [3]) /\
  leaf_at (gr_value (snd w118)) 3 = Some (kp_leafNode (kpp_public erin)) /\ leaf_at (gr_value (snd w118)) 4 = Some (kp_leafNode (kpp_public frank)) /\
  leftmost_free (gr_value ra) 3 /\
  exists h1 t1 h2 t2, applyH (gr_heap ra) (gr_tree ra) [PAdd (kpp_public erin)] [2] = Ok (h1, t1) /\ applyH h1 t1 [PRemove 3] [2] = Ok (h2, t2) /\
    lenN t2 = 7 /\ map (leaf_at (deref h2 t2)) [0; 1; 2; 3] = map (leaf_at (gr_value ra)) [0; 1; 2; 3] /\ deref h2 t2 <> gr_value ra.
Proof.
  assert (X : forall g raw w ps, acceptedPublic g raw = Some w -> fc_sender (pubm_content (fst (fst w))) = SMember 2 ->
    resolveProposals (c_proposals (snd (fst w))) 2 (gr_pending g) = Ok ps -> c_path (snd (fst w)) = None ->
    exists ac c, @accepts_commit toy g raw clock ac c (snd w) /\ fc_sender (ac_content ac) = SMember 2 /\ commits g 2 c ps /\ c_path c = None).
  { intros g raw [[m c] g'] ps A B D E. exists (publicContent m), c. splits; auto; [now apply acceptedPublic_commit|]. now apply (proj1 (resolveProposals_spec _ _ _ _)). }
  split; [exact ra_obtained|].
  split; [apply X; [exact w118a_accepted|vm_compute; reflexivity..]|].
  split; [apply X; [exact w118b_accepted|vm_compute; reflexivity..]|].
  split; [apply X; [exact w118_accepted|vm_compute; reflexivity..]|].
  split; [split; right; [reflexivity|split; reflexivity]|].
  split; [intros [_ [F|[_ F]]]; discriminate F|].
  split; [vm_compute; reflexivity|]. split; [vm_compute; reflexivity|]. split; [vm_compute; reflexivity|].
  split; [eexists; split; vm_compute; reflexivity|]. split; [vm_compute; reflexivity|]. split; [vm_compute; reflexivity|].
  split.
  { split; [vm_compute; reflexivity|]. intros j Hj. assert (D : j = 0 \/ j = 1 \/ j = 2) by lia. destruct D as [->|[->| ->]]; vm_compute; intros F; discriminate F. }
  eexists. eexists. eexists. eexists. split; [vm_compute; reflexivity|]. split; [vm_compute; reflexivity|]. split; [vm_compute; reflexivity|].
  split; [vm_compute; reflexivity|]. vm_compute. intros F. discriminate F.
Qed.
