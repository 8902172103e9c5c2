(** Facts about the steps of the message ratchet. *)
From Verif Require Export Work SpecAccept.
From Verif Require Import AcceptFacts CreateFacts.

Section WithCrypto.
Context {C : crypto}.

Lemma stepsDone_le cs n : forall s, stepsDone cs s n <= N.of_nat n.
Proof. induction n as [|n IH]; intros s; cbn [stepsDone]; [lia|]. destruct (deriveNext cs s) as [s'|e|p|]; try lia. specialize (IH s'). lia. Qed.
Lemma stepsDone_forward cs n : forall s s', ratchetForward cs s n = Ok s' -> stepsDone cs s n = N.of_nat n.
Proof.
  induction n as [|n IH]; intros s s' E; cbn [stepsDone]; [reflexivity|]. cbn [ratchetForward] in E.
  apply rbind_ok in E. destruct E as (s1 & E1 & E2). rewrite E1. rewrite (IH _ _ E2). lia.
Qed.
Lemma ratchetWork_le g li ct n : ratchetWork g li ct n <= n.
Proof. unfold ratchetWork. destruct (rbind _ _) as [s|e|p|]; try lia. pose proof (stepsDone_le (gc_cipherSuite (gr_context g)) (N.to_nat n) s). lia. Qed.
Lemma ratchetWork_secret g li ct n s : messageSecret g li ct n = Ok s -> ratchetWork g li ct n = n.
Proof.
  unfold messageSecret, ratchetWork. intros E.
  apply rbind_ok in E. destruct E as (es & E1 & E). rewrite E1. cbn [rbind].
  apply rbind_ok in E. destruct E as (st & E2 & E). rewrite E2. cbn [rbind].
  apply rbind_ok in E. destruct E as (lb & E3 & E). rewrite E3. cbn [rbind].
  apply rbind_ok in E. destruct E as (r & E4 & E). rewrite E4. rewrite (stepsDone_forward _ _ _ _ E). lia.
Qed.

(** The steps are those that the authenticated sender data asks for. *)
Lemma messageWork_le g raw : messageWork g raw = 0 \/
  exists m sds sd, unmarshal getMlsMessage raw = Ok (MPrivate m) /\ privm_groupID m = gc_groupID (gr_context g) /\ privm_epoch m = gc_epoch (gr_context g) /\
    deriveSecret (gc_cipherSuite (gr_context g)) (gr_epochSecret g) (str "sender data") = Ok sds /\
    decryptSenderData (gc_cipherSuite (gr_context g)) m sds = Ok sd /\ messageWork g raw <= sd_generation sd /\ sd_generation sd < 2 ^ 32.
Proof.
  unfold messageWork. destruct (unmarshal getMlsMessage raw) as [[m|m|m|m|m]|e|p|]; auto. unfold privateWork.
  match goal with |- match ?x with _ => _ end = _ \/ _ => destruct x as [sd|e|p|] eqn:E end; auto. right.
  apply rbind_guard in E. destruct E as [H1 E]. apply rbind_guard in E. destruct E as [H2 E].
  apply rbind_ok in E. destruct E as (sds & E1 & E2). exists m, sds, sd.
  pose proof (decryptSenderData_rfc _ _ _ _ E2) as (_ & _ & W2 & _).
  splits; auto.
  - now apply bytes_eqb_true in H1.
  - now apply N.eqb_eq in H2.
  - apply ratchetWork_le.
Qed.

Lemma opened_work g raw m ac : unmarshal getMlsMessage raw = Ok (MPrivate m) -> openPrivateMessage g m = Ok ac ->
  exists sds sd, deriveSecret (gc_cipherSuite (gr_context g)) (gr_epochSecret g) (str "sender data") = Ok sds /\
    decryptSenderData (gc_cipherSuite (gr_context g)) m sds = Ok sd /\ messageWork g raw = sd_generation sd.
Proof.
  intros U E. unfold messageWork. rewrite U. unfold openPrivateMessage in E. unfold privateWork.
  apply rbind_guard in E. destruct E as [H1 E]. rewrite H1. apply rbind_guard in E. destruct E as [H2 E]. rewrite H2. cbn [guard rbind].
  apply rbind_ok in E. destruct E as (sds & E1 & E). rewrite E1. cbn [rbind].
  apply rbind_ok in E. destruct E as (sd & E2 & E). rewrite E2.
  apply rbind_ok in E. destruct E as (s & E3 & E). exists sds, sd. splits; auto.
  exact (ratchetWork_secret _ _ _ _ _ E3).
Qed.

(** ** A sender can ask for any number of steps *)
Lemma private_message_protects ctx es p sd c a : crypto_ok C -> known_suite (gc_cipherSuite ctx) -> fc_sender c = SMember (sd_leafIndex sd) ->
  protects ctx es p sd c a 0 (private_message ctx es p sd c a 0).
Proof.
  intros OK Kn Hs. constructor; try reflexivity; auto; cbn [private_message privm_ciphertext privm_encryptedSenderData].
  - unfold opened, sealed. apply (ok_aead C OK).
    + unfold content_key, ratchet_key, DeriveTreeSecret, ExpandWithLabel. apply (ok_expand C OK).
    + unfold content_nonce, ratchet_nonce, DeriveTreeSecret, ExpandWithLabel. rewrite lenN_xor. apply (ok_expand C OK).
  - unfold opened, sealed. apply (ok_aead C OK).
    + unfold sender_data_key, ExpandWithLabel. apply (ok_expand C OK).
    + unfold sender_data_nonce, ExpandWithLabel. apply (ok_expand C OK).
Qed.

Lemma private_message_size ctx es p sd c a li : crypto_ok C -> wf_senderData sd -> fc_sender c = SMember li ->
  lenN (enc_authenticatedContentTBM 2 c ctx a) < 2 ^ 26 ->
  lenN (enc_mlsMessage (MPrivate (private_message ctx es p sd c a 0))) <= lenN (enc_authenticatedContentTBM 2 c ctx a) + 100.
Proof.
  intros OK (_ & _ & W3) Hs. unfold enc_authenticatedContentTBM, enc_framedContentTBS, enc_framedContent. rewrite Hs. intros Hz. rewrite !lenN_app, !lenN_num in Hz.
  unfold enc_mlsMessage, enc_privateMessage, private_message.
  cbn [privm_groupID privm_epoch privm_contentType privm_authenticatedData privm_encryptedSenderData privm_ciphertext].
  rewrite !lenN_app, !lenN_num.
  repeat match goal with |- context [vec (sealed ?a ?b ?c ?d ?e)] =>
    let x := fresh "x" in set (x := sealed a b c d e);
    assert (lenN x = lenN e + 16) by (apply lenN_sealed; exact OK); pose proof (vec_len_le x); clearbody x end.
  assert (Hd : lenN (enc_senderData sd) = 12) by (unfold enc_senderData; rewrite !lenN_app, !lenN_num, W3; reflexivity).
  assert (Hc : lenN (enc_privateMessageContent (mkPrivateMessageContent (fc_body c) a) ++ zeroes 0) =
    lenN (enc_body (fc_body c)) + lenN (enc_authData (fc_body c) a)) by (change (zeroes 0) with (@nil byte); rewrite app_nil_r; apply lenN_app).
  lia.
Qed.

(** Whatever content a member can send in a private message, it can send so that
    the receivers have to do any number of steps. *)
Lemma any_work g raw c a n : crypto_ok C -> known_suite (gc_cipherSuite (gr_context g)) -> delivered g raw (mkAuthenticatedContent 2 c a) ->
  lenN (enc_authenticatedContentTBM 2 c (gr_context g) a) < 2 ^ 26 -> n < 2 ^ 32 ->
  exists raw', delivered g raw' (mkAuthenticatedContent 2 c a) /\ messageWork g raw' = n /\
    lenN raw' <= lenN (enc_authenticatedContentTBM 2 c (gr_context g) a) + 100.
Proof.
  intros OK Kn D Hz Hn. pose proof D as [M Wf Au Hsz _].
  inversion M as [|c' a' k sd padding m Sh Hl (W1 & W2 & W3) P Er]. subst c' a'.
  set (sd' := mkSenderData (sd_leafIndex sd) n (sd_reuseGuard sd)).
  assert (Wd : wf_senderData sd') by (splits; auto).
  set (m' := private_message (gr_context g) (gr_epochSecret g) (leafPath k (designated (sd_leafIndex sd'))) sd' c a 0).
  exists (enc_mlsMessage (MPrivate m')).
  pose proof (private_message_size (gr_context g) (gr_epochSecret g) (leafPath k (designated (sd_leafIndex sd'))) sd' c a _ OK Wd (pr_sender _ _ _ _ _ _ _ _ P) Hz) as Hs.
  fold m' in Hs.
  assert (D' : delivered g (enc_mlsMessage (MPrivate m')) (mkAuthenticatedContent 2 c a)).
  { constructor; auto; [|lia]. apply (made_private g _ c a k sd' 0 m'); auto.
    apply private_message_protects; auto. exact (pr_sender _ _ _ _ _ _ _ _ P). }
  splits; auto.
  assert (Wm : wf_mlsMessage (MPrivate m')).
  { destruct Wf as (_ & Wc & _). cbn [ac_content] in Wc. split; [apply Wc|]. cbn [m' private_message privm_contentType].
    destruct (fc_body c); cbn; auto. }
  pose proof (unmarshal_mls _ _ Wm (fills_mlsMessage _ Wm ltac:(lia))) as U'.
  destruct (received_verified _ _ _ Kn (delivered_received _ _ _ OK Kn D')) as [(x & U & _)|(x & U & E)]; [congruence|].
  destruct (opened_work _ _ _ _ U E) as (sds & sd2 & E1 & E2 & ->). assert (x = m') by congruence. subst x.
  apply gives_deriveSecret in E1. destruct (decryptSenderData_rfc _ _ _ _ E2) as [E3 Wd2].
  pose proof (private_message_protects (gr_context g) (gr_epochSecret g) (leafPath k (designated (sd_leafIndex sd'))) sd' c a OK Kn (pr_sender _ _ _ _ _ _ _ _ P)) as P'.
  pose proof (pr_senderData _ _ _ _ _ _ _ _ P') as E4. fold m' in E4. unfold sender_data_secret in E4. rewrite <- E1 in E4.
  change (privm_groupID m') with (fc_groupID c) in E3. change (privm_epoch m') with (fc_epoch c) in E3.
  change (privm_contentType m') with (content_type (fc_body c)) in E3. rewrite E4 in E3.
  assert (E5 : enc_senderData sd' = enc_senderData sd2) by congruence.
  assert (L : lenN (enc_senderData sd') < 2 ^ 30) by (unfold enc_senderData; rewrite !lenN_app, !lenN_num; cbn [sd' sd_reuseGuard]; rewrite W3; vm_compute; reflexivity).
  pose proof (fills_senderData sd' L) as F1. pose proof (fills_senderData sd2) as F2. rewrite <- E5 in F2. specialize (F2 L).
  assert (sd' = sd2) by exact (RT_inj _ _ _ _ _ _ senderData_RT Wd Wd2 F1 F2).
  subst sd2. reflexivity.
Qed.
End WithCrypto.
