(** Bob and Carol join with one Welcome, Alice and Carol accept a commit; and
    commits that split the group. *)
From Verif Require Export ViewFacts SplitSamples.

Lemma gb_joined : @groupFromWelcome toy (fst (snd firstWelcome)) bob clock = Ok gb.
Proof. vm_compute. reflexivity. Qed.
Lemma gc_joined : @groupFromWelcome toy (fst (snd firstWelcome)) carol clock = Ok gc.
Proof. vm_compute. reflexivity. Qed.

Definition qac : authenticatedContent := publicContent (fst (fst w50)).
Lemma qa_commit : @accepts_commit toy qa w50raw clock qac (snd (fst w50)) qa'.
Proof. replace qa' with (snd w50) by (vm_compute; reflexivity). apply acceptedPublic_commit. rewrite w50_accepted. unfold qac. now destruct w50 as [[? ?] ?]. Qed.
Lemma qc_commit : @accepts_commit toy qc w50raw clock qac (snd (fst w50)) qc'.
Proof.
  pose proof qa_commit as (H1 & H2 & _). split; [|split; [exact H2|vm_compute; reflexivity]].
  refine (carries_same (C := toy) qa qc w50raw qac _ H1). repeat split; vm_compute; reflexivity.
Qed.
Lemma wf_by_coding t : unmarshal getRatchetTree (getOr [] (putRatchetTree t)) = Ok t -> t <> [] -> wf_nodes t.
Proof. intros H Hn. exact (proj2 (decoded_tree _ t H Hn)). Qed.

Lemma view_example :
  @just_entered toy qa' /\ @just_entered toy qc' /\ shaped 2 (gr_value qa') /\ wf_nodes (gr_value qa') /\ wf_groupContext (gr_context qa') /\
  gr_epochSecret qa' = gr_epochSecret qc' /\ gr_myLeafIndex qa' <> gr_myLeafIndex qc' /\
  (exists s, @has_commit_secret toy qa qa' s /\ @has_commit_secret toy qc qc' s) /\ gr_value qa' <> gr_value qa.
Proof.
  splits.
  - right. exists qa, w50raw, clock, qac, (snd (fst w50)). split; [exact qa_obtained|exact qa_commit].
  - right. exists qc, w50raw, clock, qac, (snd (fst w50)). split; [exact qc_obtained|exact qc_commit].
  - apply shapedb_ok; [unfold fits; lia|vm_compute; reflexivity].
  - apply wf_by_coding; [vm_compute; reflexivity|vm_compute; discriminate].
  - repeat split; try (vm_compute; reflexivity). vm_compute. constructor.
  - vm_compute. reflexivity.
  - vm_compute. discriminate.
  - destruct (committed_with (C := toy) _ _ _ _ _ _ qa_obtained qa_commit) as (s & Hs). exists s. split; [exact Hs|].
    unfold has_commit_secret, has_joiner in *. replace (gr_epochSecret qc') with (gr_epochSecret qa') by (vm_compute; reflexivity).
    replace (gr_context qc') with (gr_context qa') by (vm_compute; reflexivity). replace (gr_initSecret qc) with (gr_initSecret qa) by (vm_compute; reflexivity). exact Hs.
  - vm_compute. discriminate.
Qed.

(** *** Bob sends his commit with the right confirmation tag to Carol. *)
Definition w46tag : bytes := Eval vm_compute in @confirmation_tag toy (gr_context (snd w46)) (gr_epochSecret (snd w46)).
Definition w46right : bytes := Eval vm_compute in
  getOr [] (@sendPublic toy gb 1 (BCommit (mkCommit [PorProposal (PAdd (kpp_public dave))] None)) [] w46tag).
Definition w46c := Eval vm_compute in getSome (noMessage, noCommit, noGroup) (acceptedPublic gc w46right).
Lemma w46c_accepted : acceptedPublic gc w46right = Some w46c.
Proof. vm_compute. reflexivity. Qed.
Lemma tags_split :
  exists (C : crypto) g m raw raw' now ac ac' c g' m',
    crypto_ok C /\ obtained g /\ obtained m /\ agree g m /\ gr_pending m = gr_pending g /\
    accepts_commit g raw now ac c g' /\ accepts_commit m raw' now ac' c m' /\ untagged (entry ac') = untagged (entry ac) /\
    gr_epochSecret m' = gr_epochSecret g' /\ gr_context m' = gr_context g' /\ gr_interimTranscriptHash m' <> gr_interimTranscriptHash g'.
Proof.
  exists toy, ga, gc, w46raw, w46right, clock, (publicContent (fst (fst w46))), (publicContent (fst (fst w46c))), (snd (fst w46)), (snd w46), (snd w46c). splits.
  - exact toy_ok.
  - exact ga_obtained.
  - exact (obtained_joined _ _ _ _ gc_joined).
  - repeat split; vm_compute; reflexivity.
  - reflexivity.
  - apply acceptedPublic_commit. rewrite w46_accepted. now destruct w46 as [[? ?] ?].
  - replace (snd (fst w46)) with (snd (fst w46c)) by (vm_compute; reflexivity). apply acceptedPublic_commit. rewrite w46c_accepted. now destruct w46c as [[? ?] ?].
  - vm_compute. reflexivity.
  - vm_compute. reflexivity.
  - vm_compute. reflexivity.
  - vm_compute. discriminate.
Qed.
