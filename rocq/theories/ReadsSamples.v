(** Bob removes Dave; the secret for Carol is garbled. *)
From Verif Require Export ReadsFacts AlikeSamples.

Definition garble (c : hpkeCiphertext) : hpkeCiphertext := mkHpkeCiphertext (hc_kemOutput c) (str "garbage").
Definition half50 : updatePath := Eval vm_compute in
  let up := fst (fst made50r) in
  mkUpdatePath (up_leafNode up)
    match up_nodes up with
    | [n1; n2] => [n1; mkUpdatePathNode (upn_encryptionKey n2) (map garble (upn_encryptedPathSecret n2))]
    | l => l
    end.
Definition half50raw : bytes := Eval vm_compute in
  getOr [] (@sendPublic toy qb 1 (BCommit (mkCommit [PorProposal (PRemove 3)] (Some half50))) (str "r") (str "tag")).
Definition h50 := Eval vm_compute in getSome (noMessage, noCommit, noGroup) (acceptedPublic qa half50raw).
Lemma h50_accepted : acceptedPublic qa half50raw = Some h50.
Proof. vm_compute. reflexivity. Qed.
Definition k50 (m : group) (g' : group) : privTree := getOr [] (carryPriv (length (gr_value m)) (length (gr_value g')) (gr_privTree m)).
Lemma path50h : c_path (snd (fst h50)) = Some half50.
Proof. vm_compute. reflexivity. Qed.
Lemma h50_accepts : @accepts_commit toy qa half50raw clock (publicContent (fst (fst h50))) (snd (fst h50)) (snd h50).
Proof. apply acceptedPublic_commit. rewrite h50_accepted. now destruct h50 as [[? ?] ?]. Qed.
Lemma w50_accepts : @accepts_commit toy qa w50raw clock (publicContent (fst (fst w50))) (snd (fst w50)) (snd w50).
Proof. apply acceptedPublic_commit. rewrite w50_accepted. now destruct w50 as [[? ?] ?]. Qed.
Lemma h50_sender : fc_sender (ac_content (publicContent (fst (fst h50)))) = SMember 1.
Proof. vm_compute. reflexivity. Qed.
Lemma w50_sender : fc_sender (ac_content (publicContent (fst (fst w50)))) = SMember 1.
Proof. vm_compute. reflexivity. Qed.
Lemma h50_carried : carryPriv (length (gr_value qc)) (length (gr_value (snd h50))) (gr_privTree qc) = Ok (k50 qc (snd h50)).
Proof. vm_compute. reflexivity. Qed.
Lemma w50_carried : carryPriv (length (gr_value qc)) (length (gr_value (snd w50))) (gr_privTree qc) = Ok (k50 qc (snd w50)).
Proof. vm_compute. reflexivity. Qed.
Definition open50 (g' : group) (up : updatePath) : res (bytes * privTree) :=
  @decryptPathSecrets toy 1 (gr_value g') (nextContext (gr_context qa) (gc_treeHash (gr_context g')) (gc_confirmedTranscriptHash (gr_context qa))) 1 2 up (k50 qc g').
Lemma h50_closed : open50 (snd h50) half50 = Err "HPKE decryption failed".
Proof. vm_compute. reflexivity. Qed.
Definition z50 : bytes * privTree := Eval vm_compute in getOr ([], []) (open50 (snd w50) (fst (fst made50r))).
Lemma w50_opened : open50 (snd w50) (fst (fst made50r)) = Ok z50.
Proof. vm_compute. reflexivity. Qed.
Lemma h50_unread z : ~ @can_read toy qa qc (snd h50) 1 half50 z.
Proof.
  intros H. apply (proj1 (can_read_iff (C := toy) qa qc half50raw clock _ _ half50 1 (snd h50) _ qa_obtained qc_obtained h50_accepts path50h h50_sender h50_carried z)) in H.
  destruct H as (p & H). change (open50 (snd h50) half50 = Ok (z, p)) in H. rewrite h50_closed in H. discriminate.
Qed.
Lemma w50_read : @can_read toy qa qc (snd w50) 1 (fst (fst made50r)) (fst z50).
Proof.
  apply (proj2 (can_read_iff (C := toy) qa qc w50raw clock _ _ (fst (fst made50r)) 1 (snd w50) _ qa_obtained qc_obtained w50_accepts path50r w50_sender w50_carried (fst z50))).
  exists (snd z50). change (open50 (snd w50) (fst (fst made50r)) = Ok (fst z50, snd z50)). rewrite w50_opened. now destruct z50.
Qed.

Lemma reads_example :
  @obtained toy qa /\ @obtained toy qc /\ agree qa qc /\ gr_pending qc = gr_pending qa /\
  (exists ac c g' up, @accepts_commit toy qa w50raw clock ac c g' /\ c_path c = Some up /\ fc_sender (ac_content ac) = SMember 1 /\
     (exists z, @can_read toy qa qc g' 1 up z) /\ snd (@unmarshalAndProcessMessage toy qc w50raw clock) = Ok None) /\
  (exists ac c g' up, @accepts_commit toy qa half50raw clock ac c g' /\ c_path c = Some up /\ fc_sender (ac_content ac) = SMember 1 /\
     (exists z, @can_read toy qa qa g' 1 up z) /\ (forall z, ~ @can_read toy qa qc g' 1 up z) /\
     snd (@unmarshalAndProcessMessage toy qc half50raw clock) = Err "HPKE decryption failed").
Proof.
  split; [exact qa_obtained|]. split; [exact qc_obtained|]. split; [repeat split; vm_compute; reflexivity|]. split; [reflexivity|]. split.
  - exists (publicContent (fst (fst w50))), (snd (fst w50)), (snd w50), (fst (fst made50r)). split; [exact w50_accepts|]. split; [exact path50r|]. split; [exact w50_sender|].
    split; [exists (fst z50); exact w50_read|]. vm_compute. reflexivity.
  - exists (publicContent (fst (fst h50))), (snd (fst h50)), (snd h50), half50. split; [exact h50_accepts|]. split; [exact path50h|]. split; [exact h50_sender|].
    split; [exact (path_read (C := toy) _ _ _ _ _ _ _ _ qa_obtained h50_accepts path50h h50_sender)|]. split; [exact h50_unread|]. vm_compute. reflexivity.
Qed.
