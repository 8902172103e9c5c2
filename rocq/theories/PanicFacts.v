(** Messages and Welcomes that make everyone panic who gets them. *)
From Verif Require Import CrashFacts WelcomeFacts ObtainedFacts RfcFacts WireSpecFacts.
From Verif Require Export Group SpecCrash.

(** A public message from the last leaf that a tree can have *)
Definition fromNobody (gid : bytes) (epoch : N) : publicMessage :=
  mkPublicMessage (mkFramedContent gid epoch (SMember (2 ^ 31 - 1)) [] (BApplication [])) (mkAuthData [] []) [].
Lemma fromNobody_encoded gid epoch : lenN gid < 2 ^ 30 -> epoch < 2 ^ 64 ->
  exists raw, putMlsMessage (MPublic (fromNobody gid epoch)) = Ok raw /\ unmarshal getMlsMessage raw = Ok (MPublic (fromNobody gid epoch)).
Proof.
  intros Hg He. destruct (writeOpaqueVec_bound gid Hg) as (eg & _ & Eg).
  assert (X : exists raw, putMlsMessage (MPublic (fromNobody gid epoch)) = Ok raw).
  { unfold putMlsMessage, putPublicMessage, fromNobody, putFramedContent. cbn [pubm_content fc_groupID fc_epoch fc_sender fc_authenticatedData fc_body pubm_auth pubm_membershipTag].
    rewrite Eg. eexists. reflexivity. }
  assert (Wf : wf_mlsMessage (MPublic (fromNobody gid epoch))).
  { split; [|split; [now right|exact I]]. split; [exact He|]. split; [reflexivity|exact I]. }
  destruct X as (raw & E). exists raw. split; [exact E|]. unfold unmarshal. rewrite <- (app_nil_r raw), (mlsMessage_RT _ raw [] Wf E). reflexivity.
Qed.

Section WithCrypto.
Context {C : crypto}.
Lemma outside_panics g m li now : fc_groupID (pubm_content m) = gc_groupID (gr_context g) -> fc_epoch (pubm_content m) = gc_epoch (gr_context g) ->
  fc_sender (pubm_content m) = SMember li -> lenN (gr_tree g) <= 2 * designated li ->
  processPublicMessage g m now = (g, Panic "index out of range").
Proof.
  intros H1 H2 H3 H4. unfold processPublicMessage, verifyPublicMessage. cbv zeta. rewrite H1, H2, H3. rewrite bytes_eqb_refl, N.eqb_refl. cbn [guard rbind].
  unfold getLeaf. rewrite nodeIndexOf_designated, getN_out; [reflexivity|]. change (gr_value g) with (deref (gr_heap g) (gr_tree g)). now rewrite lenN_deref.
Qed.
Theorem outside_always_panics g raw m li now : unmarshal getMlsMessage raw = Ok (MPublic m) ->
  fc_groupID (pubm_content m) = gc_groupID (gr_context g) -> fc_epoch (pubm_content m) = gc_epoch (gr_context g) ->
  fc_sender (pubm_content m) = SMember li -> lenN (gr_tree g) <= 2 * designated li ->
  unmarshalAndProcessMessage g raw now = (g, Panic "index out of range").
Proof. intros E H1 H2 H3 H4. unfold unmarshalAndProcessMessage. rewrite E, (outside_panics g m li now) by assumption. reflexivity. Qed.
End WithCrypto.

Theorem one_message_for_all gid epoch : lenN gid < 2 ^ 30 -> epoch < 2 ^ 64 ->
  exists raw, forall (C : crypto) g now, gc_groupID (gr_context g) = gid -> gc_epoch (gr_context g) = epoch -> lenN (gr_tree g) < 2 ^ 32 - 1 ->
    unmarshalAndProcessMessage g raw now = (g, Panic "index out of range").
Proof.
  intros Hg He. destruct (fromNobody_encoded gid epoch Hg He) as (raw & _ & E). exists raw. intros C g now Eg Ee Hl.
  apply (outside_always_panics g raw (fromNobody gid epoch) (2 ^ 31 - 1)); auto. change (2 * designated (2 ^ 31 - 1)) with (2 ^ 32 - 2). lia.
Qed.

(** A Welcome with an unknown cipher suite *)
Definition fromStranger (ref : bytes) : welcome := mkWelcome 4660 [mkEncryptedGroupSecrets ref (mkHpkeCiphertext [] [])] [].
Lemma fromStranger_encoded ref : lenN ref < 2 ^ 20 -> exists raw, unmarshalWelcome raw = Ok (fromStranger ref).
Proof.
  intros H. exists (enc_mlsMessage (MWelcome (fromStranger ref))). unfold unmarshalWelcome, unmarshal.
  assert (R : reads_rfc wf_mlsMessage getMlsMessage enc_mlsMessage) by apply decoders_follow_the_rfc.
  rewrite <- (app_nil_r (enc_mlsMessage _)), R; [reflexivity| |].
  - vm_compute. reflexivity.
  - unfold enc_mlsMessage, enc_welcome, vecOf, fromStranger. cbn [w_cipherSuite w_secrets w_encryptedGroupInfo map concat]. unfold enc_encryptedGroupSecrets.
    cbn [egs_newMember egs_secrets]. change (enc_hpkeCiphertext (mkHpkeCiphertext [] [])) with [x00; x00]. change (vec []) with [x00].
    assert (2 ^ 20 < 2 ^ 30) by reflexivity. pose proof (vec_len_le ref ltac:(lia)) as V1.
    assert (V2 : lenN (vec ((vec ref ++ [x00; x00]) ++ [])) <= lenN ref + 10).
    { eapply N.le_trans; [apply vec_len_le|]; rewrite !lenN_app; change (lenN [x00; x00]) with 2; change (lenN (@nil byte)) with 0; change (2 ^ 20) with 1048576 in H; change (2 ^ 30) with 1073741824 in *; lia. }
    rewrite !lenN_app, ?lenN_num. change (lenN [x00]) with 1. change (2 ^ 30) with 1073741824. change (2 ^ 20) with 1048576 in H. lia.
Qed.
Theorem one_welcome_for_a_key_package (C : crypto) kp ref : crypto_ok C -> keyPackageRef kp = Ok ref ->
  exists raw w, unmarshalWelcome raw = Ok w /\ forall kpp now, kpp_public kpp = kp -> groupFromWelcome w kpp now = Panic "mls: invalid cipher suite".
Proof.
  intros OK E. assert (L : lenN ref < 2 ^ 20).
  { rewrite (keyPackageRef_only _ _ E). unfold KeyPackageRef, RefHash, Hash. rewrite (ok_hash _ OK). destruct (hashOf _); reflexivity. }
  destruct (fromStranger_encoded ref L) as (raw & Er). exists raw, (fromStranger ref). split; [exact Er|]. intros kpp now Ek.
  unfold groupFromWelcome. rewrite Ek, E. cbn [rbind]. unfold decryptGroupSecrets, findSecret, fromStranger. cbn [w_secrets find egs_newMember].
  rewrite bytes_eqb_refl. cbn [w_cipherSuite w_encryptedGroupInfo egs_secrets hc_kemOutput hc_ciphertext]. reflexivity.
Qed.
