(** No confirmation tag makes a difference to whether a commit is accepted. *)
From Verif Require Export SpecTags.
From Verif Require Import AcceptFacts.

Section WithCrypto.
Context {C : crypto}.

Lemma epoch_retag g ac tag th z x i p e s : known_suite (gc_cipherSuite (gr_context g)) -> short tag ->
  nextEpoch g ac th z [] [] = Ok (x, i, p, e, s) ->
  nextEpoch g (with_tag ac tag) th z [] [] = Ok (x, interim_transcript_hash (gc_cipherSuite x) (gc_confirmedTranscriptHash x) tag, p, e, s).
Proof.
  intros Kn Ht H. pose proof (nextEpoch_ok _ _ _ _ _ _ _ _ _ _ _ H) as (cf & jo & A1 & A2 & _). revert H. unfold nextEpoch, with_tag. cbv zeta. cbn [ac_wireFormat ac_content ac_auth ad_signature ad_confirmationTag].
  rewrite A1. cbn [rbind]. intros H. rinv. subst. rewrite (proj2 (gives_interim _ _ _) (conj Kn Ht)). cbn [rbind].
  rewrite E0. cbn [rbind]. rewrite E1. cbn [rbind]. rewrite E2. cbn [rbind]. rewrite E3. cbn [rbind]. inversion H; subst. reflexivity.
Qed.

Lemma commit_retag g ac tag c g' now : known_suite (gc_cipherSuite (gr_context g)) -> short tag -> fc_body (ac_content ac) = BCommit c ->
  processCommit g ac [] [] now = (g', Ok tt) -> processCommit g (with_tag ac tag) [] [] now = (after_tag g' tag, Ok tt).
Proof.
  intros Kn Ht Hb H. unfold processCommit in *. change (ac_content (with_tag ac tag)) with (ac_content ac). rewrite Hb in *.
  destruct (checkCommit g (sender_leafIndex (fc_sender (ac_content ac))) c) as [[ps ss]| | |]; try discriminate H.
  destruct (applyH (gr_heap g) (gr_tree g) ps ss) as [[h t]| | |]; try discriminate H.
  destruct (finishCommit g ac c h t [] [] now) as [g1| | |] eqn:F; try discriminate H. injection H as H. subst g1.
  enough (F' : finishCommit g (with_tag ac tag) c h t [] [] now = Ok (after_tag g' tag)) by now rewrite F'.
  unfold finishCommit in *. cbv zeta in *. change (ac_content (with_tag ac tag)) with (ac_content ac).
  destruct (carryPriv (length (gr_tree g)) (length t) (gr_privTree g)) as [pr| | |]; try discriminate F. cbn [rbind] in *.
  destruct (extractSize (gc_cipherSuite (gr_context g))) as [nh| | |]; try discriminate F. cbn [rbind] in *.
  match type of F with rbind ?m _ = _ => destruct m as [[[[[h1 t1] th] z] p1]| | |]; try discriminate F end.
  cbn [rbind] in *.
  destruct (nextEpoch g ac th z [] []) as [[[[[x i] p] e] s]| | |] eqn:N; try discriminate F. cbn [rbind] in F.
  rewrite (epoch_retag _ _ tag _ _ _ _ _ _ _ Kn Ht N). cbn [rbind]. assert (g' = mkGroup h1 t1 x i p e s (gr_myLeafIndex g) p1 (gr_signaturePriv g) []) as -> by congruence. reflexivity.
Qed.

Theorem every_tag_accepted g raw raw' now ac c g' tag : crypto_ok C -> known_suite (gc_cipherSuite (gr_context g)) ->
  accepts_commit g raw now ac c g' -> delivered g raw' (with_tag ac tag) -> accepts_commit g raw' now (with_tag ac tag) c (after_tag g' tag).
Proof.
  intros OK Kn (Hc & Hb & Hu) D. pose proof (delivered_received _ _ _ OK Kn D) as R.
  pose proof (size_parts _ _ _ R) as (_ & _ & _ & _ & Zb). destruct (Zb c Hb) as [_ Ht]. cbn [with_tag ac_auth ad_confirmationTag] in Ht.
  destruct (accepts_commit_inv _ _ _ _ _ _ (conj Hc (conj Hb Hu))) as [_ P].
  split; [exact (rc_carries _ _ _ R)|]. split; [exact Hb|]. rewrite (received_commit _ _ _ c now Kn R Hb), (commit_retag _ _ _ _ _ _ Kn Ht Hb P). reflexivity.
Qed.

Lemma membership_tag_small ctx e c a : crypto_ok C -> lenN (membership_tag ctx e c a) <= 64.
Proof. intros OK. unfold membership_tag, MAC. rewrite (ok_hmac _ OK). destruct (hashOf _); vm_compute; discriminate. Qed.

Theorem every_public_commit_retagged g raw now ac c g' tag : crypto_ok C -> known_suite (gc_cipherSuite (gr_context g)) ->
  accepts_commit g raw now ac c g' -> ac_wireFormat ac = 1 ->
  lenN (enc_authenticatedContentTBM 1 (ac_content ac) (gr_context g) (ac_auth (with_tag ac tag))) < 2 ^ 26 ->
  accepts_commit g (retagged g ac tag) now (with_tag ac tag) c (after_tag g' tag).
Proof.
  intros OK Kn A Hw Hz. apply (every_tag_accepted g raw _ now ac c g' tag OK Kn A). destruct A as (Hc & Hb & Hu).
  destruct (accepts_commit_inv _ _ _ _ _ _ (conj Hc (conj Hb Hu))) as [Au _].
  assert (Au' : authentic g (with_tag ac tag)) by exact Au. destruct Au as (_ & _ & li & leaf & Hs & _).
  assert (Z : lenN (retagged g ac tag) < 2 ^ 27).
  { unfold retagged, enc_mlsMessage, enc_publicMessage. cbn [pubm_content pubm_auth pubm_membershipTag]. rewrite Hs.
    pose proof (membership_tag_small (gr_context g) (gr_epochSecret g) (ac_content ac) (ac_auth (with_tag ac tag)) OK).
    pose proof (vec_len_le (membership_tag (gr_context g) (gr_epochSecret g) (ac_content ac) (ac_auth (with_tag ac tag)))).
    unfold enc_authenticatedContentTBM, enc_framedContentTBS in Hz. rewrite Hs in Hz. rewrite !lenN_app, !lenN_num in *. lia. }
  constructor.
  - unfold with_tag. rewrite Hw. apply made_public. reflexivity.
  - destruct (carries_wf _ _ _ Hc) as [Wf _]. split; [|split].
    + cbn [with_tag ac_wireFormat]. rewrite Hw. now left.
    + exact Wf.
    + left. cbn [with_tag ac_content]. now rewrite Hb.
  - exact Au'.
  - cbn [with_tag ac_wireFormat ac_content]. rewrite Hw. change (mkAuthData (ad_signature (ac_auth ac)) tag) with (ac_auth (with_tag ac tag)). lia.
  - exact Z.
Qed.
End WithCrypto.
