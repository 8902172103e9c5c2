(** Dave's Welcome is for Dave and not for Alice. *)
From Verif Require Export InviteSamples ExactJoinFacts.

Lemma sec75_found : findSecret w75 (@KeyPackageRef toy (kpp_public dave)) = Some sec75.
Proof. vm_compute. reflexivity. Qed.
Lemma secrets75 s : @opens_secrets toy w75 dave s -> gs_psks s = [] -> s = s75.
Proof.
  intros O Hp. assert (Hs : short (w_encryptedGroupInfo w75)) by (vm_compute; reflexivity).
  assert (E : enc_groupSecrets s = enc_groupSecrets s75).
  { destruct O as (b & sec & a & Hw & Hb & Hr & Hd).
    assert (F : findSecret w75 (@KeyPackageRef toy (kpp_public dave)) = Some sec) by (apply findSecret_iff; eauto).
    rewrite sec75_found in F. assert (sec = sec75) as -> by congruence. clear F.
    apply (proj2 (decrypt_iff (C := toy) _ _ _ _ _ _ _ (labelled_short (str "Welcome") (w_encryptedGroupInfo w75) ltac:(vm_compute; reflexivity) Hs))) in Hd.
    assert (V : @decryptWithLabel toy (w_cipherSuite w75) (kpp_initKey dave) (str "Welcome") (w_encryptedGroupInfo w75) (hc_kemOutput (egs_secrets sec75)) (hc_ciphertext (egs_secrets sec75)) = Ok (enc_groupSecrets s75))
      by (vm_compute; reflexivity).
    rewrite V in Hd. apply Ok_inj in Hd. now symmetry. }
  assert (Z : short (enc_groupSecrets s)) by (rewrite E; vm_compute; reflexivity).
  assert (R : @decryptGroupSecrets toy w75 (@KeyPackageRef toy (kpp_public dave)) (kpp_initKey dave) = Ok s).
  { apply secrets_open; auto. unfold wf_groupSecrets. rewrite Hp. constructor. }
  assert (V : @decryptGroupSecrets toy w75 (@KeyPackageRef toy (kpp_public dave)) (kpp_initKey dave) = Ok s75) by (vm_compute; reflexivity).
  rewrite V in R. apply Ok_inj in R. now symmetry.
Qed.
Lemma ordinary75 : @ordinary toy w75 dave.
Proof.
  split; [exact (proj1 wf75)|]. split; [vm_compute; reflexivity|]. split; [vm_compute; reflexivity|].
  intros s gi t O Hp I T. rewrite (secrets75 s O Hp) in *. clear O Hp.
  apply (proj2 (opens_info_iff (C := toy) w75 s75 gi toy_ok ltac:(eexists; vm_compute; reflexivity))) in I.
  assert (V : @decryptGroupInfo toy w75 (gs_joinerSecret s75) (@psk_secret toy (w_cipherSuite w75) []) = Ok gi75) by (vm_compute; reflexivity).
  rewrite V in I. apply Ok_inj in I. subst gi. apply (proj1 (holds_tree_iff _ _)) in T as (raw & E & T).
  assert (W1 : findExtensionData (gi_extensions gi75) 2 = Some rawTree75) by (vm_compute; reflexivity). rewrite W1 in E. assert (raw = rawTree75) as -> by congruence.
  assert (W2 : unmarshal getRatchetTree rawTree75 = Ok t52c') by (vm_compute; reflexivity). rewrite W2 in T. apply Ok_inj in T. subst t.
  split; [vm_compute; reflexivity|]. split; [vm_compute; reflexivity|]. apply lists_once_by. vm_compute. reflexivity.
Qed.
Lemma admits75 : exists s gi k, @admits toy w75 dave s gi k t52c' 1 clock /\ gs_pathSecret s <> None.
Proof.
  destruct (invited_joins w75 dave s75 gi75 2 t52c' 1 clock toy_ok clock_later invite75) as (g & H & V & _ & M & _).
  destruct (accepted_admits _ _ _ _ toy_ok clock_later ordinary75 H) as (s & gi & k & A & _). rewrite V, M in A.
  exists s, gi, k. split; [exact A|]. rewrite (secrets75 s (ad_secrets _ _ _ _ _ _ _ _ A) (ad_psks _ _ _ _ _ _ _ _ A)). discriminate.
Qed.
Lemma alice_not_meant s : ~ @opens_secrets toy w75 alice s.
Proof.
  intros (b & sec & a & Hw & Hb & Hr & _). assert (F : findSecret w75 (@KeyPackageRef toy (kpp_public alice)) = Some sec) by (apply findSecret_iff; eauto).
  assert (V : findSecret w75 (@KeyPackageRef toy (kpp_public alice)) = None) by (vm_compute; reflexivity). rewrite V in F. discriminate F.
Qed.
Lemma exact_join_example :
  crypto_ok toy /\ later_than_1970 clock /\ @ordinary toy w75 dave /\
  (exists s gi k, @admits toy w75 dave s gi k t52c' 1 clock /\ gs_pathSecret s <> None) /\
  forall s gi k t me, ~ @admits toy w75 alice s gi k t me clock.
Proof.
  split; [exact toy_ok|]. split; [exact clock_later|]. split; [exact ordinary75|]. split; [exact admits75|].
  intros s gi k t me A. exact (alice_not_meant s (ad_secrets _ _ _ _ _ _ _ _ A)).
Qed.
