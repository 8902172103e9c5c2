(** Alice and Carol hear Bob; Bob joins early and late. *)
From Verif Require Export AlikeFacts SplitSamples TypesSamples.

Definition late : gotime := unixTime 3000000000.
Lemma late_later : later_than_1970 late.
Proof. split; [split|]; vm_compute; split; congruence || reflexivity. Qed.
Lemma clock_example :
  @unmarshalAndProcessMessage toy qa w50raw clock = (qa', Ok None) /\ @unmarshalAndProcessMessage toy qa w50raw late = (qa', Ok None) /\
  @groupFromWelcome toy (fst (snd firstWelcome)) bob clock = Ok gb /\
  @groupFromWelcome toy (fst (snd firstWelcome)) bob late = Err "mls: lifetime verification failed" /\ later_than_1970 late.
Proof.
  split; [vm_compute; reflexivity|]. split; [vm_compute; reflexivity|]. split; [vm_compute; reflexivity|]. split; [vm_compute; reflexivity|]. exact late_later.
Qed.

Definition addsDave : bytes := snd (snd secondWelcome).
Definition noPrivate : privateMessage := mkPrivateMessage [] 0 0 [] [] [].
Definition addsPrivate : privateMessage := Eval vm_compute in match unmarshal getMlsMessage addsDave with Ok (MPrivate m) => m | _ => noPrivate end.
Lemma adds_private : unmarshal getMlsMessage addsDave = Ok (MPrivate addsPrivate).
Proof. vm_compute. reflexivity. Qed.
Definition addsContent : authenticatedContent := Eval vm_compute in
  getOr (mkAuthenticatedContent 0 (mkFramedContent [] 0 SNewMemberCommit [] (BApplication [])) (mkAuthData [] [])) (@openPrivateMessage toy ga addsPrivate).
Lemma adds_content : @openPrivateMessage toy ga addsPrivate = Ok addsContent.
Proof. vm_compute. reflexivity. Qed.
Definition addsCommit : commit := Eval vm_compute in match fc_body (ac_content addsContent) with BCommit c => c | _ => mkCommit [] None end.
Lemma adds_commit : fc_body (ac_content addsContent) = BCommit addsCommit.
Proof. vm_compute. reflexivity. Qed.
Lemma adds_pathless : c_path addsCommit = None.
Proof. vm_compute. reflexivity. Qed.
Lemma adds_no_path ac c : @carries toy ga addsDave ac -> fc_body (ac_content ac) = BCommit c -> c_path c = None.
Proof.
  intros Hc Hb. pose proof (proj1 (openPrivateMessage_ok (C := toy) _ _ _ _ adds_private adds_content)) as Ha.
  pose proof (carries_fun (C := toy) _ _ _ _ Hc Ha) as E. rewrite E, adds_commit in Hb. injection Hb as <-. exact adds_pathless.
Qed.

Lemma alike_example :
  @obtained toy ga /\ @obtained toy gc /\ agree ga gc /\ gr_pending gc = gr_pending ga /\ gr_myLeafIndex ga <> gr_myLeafIndex gc /\
  (forall ac c, @carries toy ga addsDave ac -> fc_body (ac_content ac) = BCommit c -> c_path c = None) /\
  @unmarshalAndProcessMessage toy ga addsDave clock = (qa, Ok None) /\ @unmarshalAndProcessMessage toy gc addsDave late = (qc, Ok None) /\
  gr_value qa <> gr_value ga /\
  @unmarshalAndProcessMessage toy qa addsDave clock = (qa, Err "mls: epoch mismatch") /\
  @unmarshalAndProcessMessage toy qc addsDave clock = (qc, Err "mls: epoch mismatch").
Proof.
  split; [exact ga_obtained|]. split; [exact gc_obtained|]. split; [repeat split; vm_compute; reflexivity|]. split; [reflexivity|]. split; [vm_compute; discriminate|].
  split; [exact adds_no_path|]. split; [vm_compute; reflexivity|]. split; [vm_compute; reflexivity|]. split; [vm_compute; discriminate|]. split; vm_compute; reflexivity.
Qed.
