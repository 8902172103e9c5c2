(** A Welcome with which Dave has to be able to join. *)
From Verif Require Export InviteFacts PathSamples AcceptSamples CommitTreeSamples.

Definition gi75 : groupInfo := Eval vm_compute in gi52 t52c'.
Definition s75 : groupSecrets := Eval vm_compute in mkGroupSecrets (zeros 32) (Some seed52) [].
Definition w75 : welcome := Eval vm_compute in w52 t52c' (Some seed52).
Definition sec75 : encryptedGroupSecrets := Eval vm_compute in hd (mkEncryptedGroupSecrets [] (mkHpkeCiphertext [] [])) (w_secrets w75).
Definition kp75 : bytes := Eval vm_compute in getOr [] (putMlsMessage (MKeyPackage (kpp_public dave))).
Definition rawInfo75 : bytes := Eval vm_compute in getOr [] (putGroupInfo gi75).
Definition rawTree75 : bytes := Eval vm_compute in getOr [] (putRatchetTree t52c').

Lemma wf75 : wf_keyPackage (kpp_public dave) /\ wf_groupInfo gi75 /\ wf_ratchetTree t52c'.
Proof.
  splits.
  - assert (H : unmarshalKeyPackage kp75 = Ok (kpp_public dave)) by (vm_compute; reflexivity).
    apply (proj1 (unmarshalKeyPackage_ok _ _)) in H. apply mlsMessage_CAN in H. destruct H as (Hw & _). exact Hw.
  - assert (H : getGroupInfo rawInfo75 = (Ok gi75, [])) by (vm_compute; reflexivity). apply groupInfo_CAN in H. destruct H as (Hw & _). exact Hw.
  - assert (H : unmarshal getRatchetTree rawTree75 = Ok t52c') by (vm_compute; reflexivity). split.
    + destruct (decoded_tree rawTree75 t52c' H ltac:(discriminate)) as [_ Hw]. exact Hw.
    + right. exists 2. split; [vm_compute; reflexivity|]. exists 4%nat. eexists. split; [vm_compute; reflexivity|vm_compute; discriminate].
Qed.
Lemma invite75 : @invites toy w75 dave s75 gi75 2 t52c' 1 clock.
Proof.
  assert (Sh : shaped 2 t52c') by (apply shapedb_ok; [unfold fits; lia|vm_compute; reflexivity]).
  assert (Lo : lists_once t52c') by (apply lists_once_by; vm_compute; reflexivity).
  constructor.
  - split; vm_compute; reflexivity.
  - exact (Forall_inv (proj2 dave_may_join)).
  - exists sec75, (str "x"). split; [left; vm_compute; reflexivity|]. split; [vm_compute; reflexivity|].
    exists (mkSuiteDesc SHA256 X25519 SHA256 AES128GCM Ed25519). split; vm_compute; reflexivity.
  - constructor; [intros []|constructor].
  - reflexivity.
  - vm_compute. reflexivity.
  - eexists. split; [vm_compute; reflexivity|]. apply info_signature_verified. vm_compute. reflexivity.
  - vm_compute. reflexivity.
  - exists [], []. split; [vm_compute; reflexivity|intros e []].
  - exact Sh.
  - assert (H : @verifyIntegrity toy t52c' (gi_groupContext gi75) clock = Ok tt) by (vm_compute; reflexivity).
    exact (verifyIntegrity_sound (C := toy) 2 t52c' _ clock Sh (wf_nodes_lifetimes _ (proj1 (proj2 (proj2 wf75)))) clock_later Lo H).
  - exact Lo.
  - vm_compute. reflexivity.
  - intros s [= <-]. split; [vm_compute; reflexivity|]. exists [false], true, [], []. splits; try (vm_compute; reflexivity).
    apply keyedb_ok. vm_compute. reflexivity.
  - exact wf75.
  - splits; vm_compute; reflexivity.
Qed.
Lemma invite_example : crypto_ok toy /\ later_than_1970 clock /\ @invites toy w75 dave s75 gi75 2 t52c' 1 clock /\ gs_pathSecret s75 <> None /\
  u16 (w_cipherSuite w75) /\ lenN (enc_mlsMessage (MWelcome w75)) < 2 ^ 30.
Proof.
  split; [exact toy_ok|]. split; [exact clock_later|]. split; [exact invite75|]. split; [discriminate|]. split; vm_compute; reflexivity.
Qed.
