(** How much the functions of JoinWork.v count. *)
From Verif Require Import MessageBoundFacts HashWorkFacts CrashFacts ObtainedFacts JoinFacts.
From Verif Require Export JoinWork SpecMessageWork.

Section WithCrypto.
Context {C : crypto}.

(** ** Apart from the count nothing changes *)
Lemma erase_root cs t : fst (countRootTreeHash cs t) = computeRootTreeHash cs t.
Proof. unfold countRootTreeHash, computeRootTreeHash. apply erase_hash. Qed.
Theorem erase_create gid kpp rnd : fst (countCreate gid kpp rnd) = createGroup gid kpp rnd.
Proof.
  unfold countCreate, createGroup. cbv zeta. erase1. erase1; [apply erase_root|]. do 5 erase1. reflexivity.
Qed.
Lemma erase_pathSecret_loop cs t : forall fuel priv s x,
  fst (countPathSecretLoop fuel cs t priv s x) = processPathSecretLoop fuel cs t priv s x.
Proof.
  induction fuel as [|f IH]; intros priv s x; cbn [countPathSecretLoop processPathSecretLoop]; (destruct (parent _ x) as [x'|]; [|reflexivity]);
    do 2 erase1; (destruct x1 as [n|]; [|reflexivity]); (erase1; [apply erase_nodePriv|]); erase1; [reflexivity|]. apply IH.
Qed.
Lemma erase_pathSecret cs t priv s x : fst (countPathSecret cs t priv s x) = processPathSecret cs t priv s x.
Proof.
  unfold countPathSecret, processPathSecret. erase1. destruct x0 as [n|]; [|reflexivity]. erase1; [apply erase_nodePriv|]. erase1. apply erase_pathSecret_loop.
Qed.
Lemma erase_fromSecrets w kpp s raw psks now : fst (countFromSecrets w kpp s raw psks now) = groupFromSecrets w kpp s raw psks now.
Proof.
  unfold countFromSecrets, groupFromSecrets. do 2 erase1. cbv zeta. destruct (match raw with Some _ => _ | None => _ end) as [r|]; [|reflexivity].
  do 2 erase1. destruct x2 as [signer|]; [|reflexivity]. do 5 erase1. erase1; [apply erase_integrity|]. do 4 erase1.
  match goal with |- context [match ?x with Some _ => _ | None => _ end] => destruct x as [me|]; [|reflexivity] end. erase1.
  erase1; [destruct (gs_pathSecret s); [apply erase_pathSecret|reflexivity]|]. destruct (load _). reflexivity.
Qed.
Theorem erase_join w kpp now : fst (countJoin w kpp now) = groupFromWelcome w kpp now.
Proof. unfold countJoin, groupFromWelcome. do 4 erase1. apply erase_fromSecrets. Qed.
Lemma erase_encrypt g content pc guard : fst (countEncrypt g content pc guard) = groupEncryptPrivateMessage g content pc guard.
Proof. unfold countEncrypt, groupEncryptPrivateMessage. cbv zeta. erase1; [apply erase_secret|]. do 2 erase1. reflexivity. Qed.
Theorem erase_send g data rnd guard : fst (countSend g data rnd guard) = createApplicationMessage g data rnd guard.
Proof. unfold countSend, createApplicationMessage. cbv zeta. erase1. apply erase_encrypt. Qed.
Lemma erase_secretsFor cs s info : forall kps rnds, fst (countSecretsFor cs s info kps rnds) = encryptSecretsFor cs s info kps rnds.
Proof.
  induction kps as [|kp r IH]; intros rnds; [reflexivity|]. cbn [countSecretsFor encryptSecretsFor]. do 2 erase1. erase1; [apply IH|]. reflexivity.
Qed.
Lemma erase_finishWelcome g kps h t r1 r2 rs guard : fst (countFinishWelcome g kps h t r1 r2 rs guard) = finishWelcome g kps h t r1 r2 rs guard.
Proof.
  unfold countFinishWelcome, finishWelcome. cbv zeta. erase1; [apply erase_root|]. do 10 erase1. erase1; [apply erase_secretsFor|].
  erase1; [apply erase_encrypt|]. reflexivity.
Qed.
Theorem erase_invite g kps r1 r2 rs guard : fst (countInvite g kps r1 r2 rs guard) = createWelcome g kps r1 r2 rs guard.
Proof.
  unfold countInvite, createWelcome. destruct kps as [|kp r]; [reflexivity|]. destruct (applyH _ _ _ _) as [[h t]|?|?|]; try reflexivity.
  rewrite <- erase_finishWelcome. destruct (countFinishWelcome _ _ _ _ _ _ _ _). reflexivity.
Qed.

(** ** Creating *)
Theorem create_work gid kpp rnd : snd (countCreate gid kpp rnd) <= 5.
Proof.
  unfold countCreate. cbv zeta. apply free_step. intros [h t] E.
  assert (W : full 0 (deref h t)) by (vm_compute in E; apply Ok_inj in E; injection E as <- <-; split; [vm_compute; first [reflexivity|lia]|vm_compute; reflexivity]).
  pose proof (full_len 0 _ W) as L. unfold leaf_count in L. cbn in L.
  pay 1; [eapply N.le_trans; [now apply (root_work _ 0)|lia]|]. free. pay 2; [apply N.le_refl|]. pay1. free. pay1. none.
Qed.

(** ** Joining *)
Definition tree_in (l : list extension) : N := match findExtensionData l 2 with Some r => lenN r | None => 0 end.
Lemma sized_extension : sized (fun e => lenN (ext_data e)) getExtension.
Proof.
  unfold getExtension. apply sized_bind; [apply SAFE_SAFE0, readUint16_SAFE|intros ty]. apply (sized_first lenN); [apply sized_opaque|].
  intros x s b rest H. injection H as <- _. reflexivity.
Qed.
Lemma extensions_loop : forall fuel s l, readVectorLoop fuel getExtension s = Ok l -> tree_in l <= lenN s.
Proof.
  induction fuel as [|n IH]; intros s l; cbn [readVectorLoop]; (destruct s as [|b s]; [intros H; apply Ok_inj in H; subst; apply N.le_0_l|]); [discriminate|].
  destruct (getExtension (b :: s)) as [[e|?|?|] s'] eqn:Ee; try discriminate. destruct (readVectorLoop n _ s') as [l'|?|?|] eqn:E; cbn [rmap]; try discriminate.
  intros H. apply Ok_inj in H. subst l. unfold tree_in. cbn [findExtensionData]. destruct (ext_type e =? 2); [now apply sized_extension in Ee|].
  apply IH in E. unfold tree_in in E. pose proof (SAFE_SAFE0 _ extension_SAFE (b :: s)) as S0. rewrite Ee in S0. unfold lenN in *. lia.
Qed.
Lemma sized_extensions : sized tree_in getExtensionVec.
Proof.
  intros s l rest. unfold getExtensionVec, readVector, rd_bind. destruct (readVarint s) as [[n|?|?|] s1] eqn:E1; try discriminate.
  pose proof (readVarint_SAFE s) as S1. rewrite E1 in S1.
  destruct (readN n s1) as [[v|?|?|] s2] eqn:E2; try discriminate. apply readN_inv in E2. intros H. injection H as H _. apply extensions_loop in H.
  destruct E2 as [E2 _]. apply (f_equal (@length _)) in E2. rewrite app_length in E2. unfold lenN in *. lia.
Qed.
Ltac rdinv H := repeat match type of H with
  | context [rd_bind ?r ?k ?s] => unfold rd_bind in H at 1; let E := fresh in destruct (r s) as [[?|?|?|] ?] eqn:E; try discriminate H
  end.
Lemma sized_groupInfo : sized (fun gi => tree_in (gi_extensions gi)) getGroupInfo.
Proof.
  unfold getGroupInfo. apply sized_bind; [apply SAFE_SAFE0, groupContext_SAFE|intros ?]. apply (sized_first tree_in); [apply sized_extensions|].
  intros x s b rest H. rdinv H. injection H as <- _. reflexivity.
Qed.
Lemma groupInfo_holds w j p gi : opens_no_longer C -> decryptGroupInfo w j p = Ok gi -> tree_in (gi_extensions gi) <= lenN (w_encryptedGroupInfo w).
Proof.
  intros NL. unfold decryptGroupInfo. cbv zeta. intros H. apply rbind_ok in H. destruct H as ([key nonce] & _ & H). apply rbind_ok in H. destruct H as (raw & Eo & H).
  unfold unmarshal in H. destruct (getGroupInfo raw) as [[x|?|?|] rest] eqn:E; try discriminate. destruct rest; [|discriminate]. apply Ok_inj in H. subst x.
  apply sized_groupInfo in E.
  unfold aeadOpen in Eo. apply rbind_ok in Eo. destruct Eo as (d & _ & Eo). destruct (negb _); [discriminate|]. destruct (negb _); [discriminate|].
  destruct (cr_aeadOpen _ _ _ _ _ _) as [pt|] eqn:Ep; [|discriminate]. apply Ok_inj in Eo. subst pt. apply NL in Ep. lia.
Qed.
Lemma pathSecret_loop_work cs t : forall fuel priv s x, snd (countPathSecretLoop fuel cs t priv s x) <= 3 * (N.of_nat fuel + 1).
Proof.
  induction fuel as [|f IH]; intros priv s x; cbn [countPathSecretLoop]; (destruct (parent _ x) as [x'|]; [|none]);
    pay1; free; (destruct x1 as [n|]; [|none]); (pay 2; [apply nodePriv_work|]); free; [none|].
  eapply N.le_trans; [apply IH|lia].
Qed.
Lemma pathSecret_work cs t priv s x : snd (countPathSecret cs t priv s x) <= 104.
Proof.
  unfold countPathSecret. free. destruct x0 as [n|]; [|none]. pay 2; [apply nodePriv_work|]. free.
  eapply N.le_trans; [apply pathSecret_loop_work|lia].
Qed.
Lemma n_log_n a b : a <= b -> (N.log2 (a + 1) + 1) * (a + 1) <= (N.log2 (b + 1) + 1) * (b + 1).
Proof. intros H. assert (N.log2 (a + 1) <= N.log2 (b + 1)) by (apply N.log2_le_mono; lia). apply N.mul_le_mono; lia. Qed.
Theorem join_work w kpp now : opens_no_longer C ->
  snd (countJoin w kpp now) <=
  (N.log2 (2 * lenN (w_encryptedGroupInfo w) + 1) + 1) * (2 * lenN (w_encryptedGroupInfo w) + 1) + 120.
Proof.
  intros NL. unfold countJoin. pay1. pay1. free. apply free_step. intros u G.
  assert (Z : lenN (gs_psks x0) = 0) by (unfold guard in G; destruct (lenN (gs_psks x0) =? 0) eqn:E; [now apply N.eqb_eq in E|discriminate]).
  unfold countFromSecrets. rewrite Z. apply free_step. intros psk _. pay 5; [apply N.le_refl|]. cbn [costs fst] in *. rename x2 into gi.
  match goal with H : decryptGroupInfo _ _ _ = Ok _ |- _ => apply (groupInfo_holds _ _ _ _ NL) in H; rename H into Hl end.
  cbv zeta. unfold tree_in in Hl. destruct (findExtensionData _ _) as [raw|]; [|none].
  apply free_step. intros t Et. destruct (received_work raw t (gi_groupContext gi) now Et) as [Lt Wt]. cbn [costs fst] in *.
  pose proof (n_log_n (lenN t) (2 * lenN (w_encryptedGroupInfo w)) ltac:(lia)) as B.
  free. destruct x2 as [signer|]; [|none]. pay1. free. pay 4; [apply N.le_refl|]. do 2 free.
  apply (paid_step ((N.log2 (2 * lenN (w_encryptedGroupInfo w) + 1) + 1) * (2 * lenN (w_encryptedGroupInfo w) + 1))); [lia|lia|]. intros u1 _.
  pay 2; [apply N.le_refl|]. pay1. pay1. free.
  match goal with |- context [match ?x with Some _ => _ | None => _ end] => destruct x as [me|]; [|none] end.
  free. pay 104; [destruct (gs_pathSecret _); [apply pathSecret_work|none]|]. destruct (load _). none.
Qed.
Lemma sized_welcome : sized (fun w => lenN (w_encryptedGroupInfo w)) getWelcome.
Proof.
  unfold getWelcome. apply sized_bind; [apply SAFE_SAFE0, readUint16_SAFE|intros cs].
  apply sized_bind; [apply SAFE_SAFE0, readVector_SAFE, egs_SAFE|intros secs].
  apply (sized_first lenN); [apply sized_opaque|]. intros x s b rest H. injection H as <- _. reflexivity.
Qed.
Lemma sized_wrapped : sized (fun m => match m with MWelcome w => lenN (w_encryptedGroupInfo w) | _ => 0 end) getMlsMessage.
Proof.
  unfold getMlsMessage. apply sized_bind; [apply SAFE_SAFE0, readUint16_SAFE|intros v].
  destruct (negb (v =? 1)); [intros ? ? ? H; discriminate|]. apply sized_bind; [apply SAFE_SAFE0, getTag2_SAFE|intros wf].
  destruct (wf =? 1); [|destruct (wf =? 2); [|destruct (wf =? 3); [|destruct (wf =? 4); [|destruct (wf =? 5)]]]].
  3: { apply (sized_first (fun w => lenN (w_encryptedGroupInfo w))); [apply sized_welcome|]. intros x s b rest H. injection H as <- _. reflexivity. }
  5: { intros ? ? ? H; discriminate. }
  all: intros s b rest H; rdinv H; injection H as <- _; apply N.le_0_l.
Qed.
Lemma welcome_holds raw w : unmarshalWelcome raw = Ok w -> lenN (w_encryptedGroupInfo w) <= lenN raw.
Proof.
  unfold unmarshalWelcome. intros H. apply rbind_ok in H. destruct H as (m & H & Hm). unfold unmarshal in H.
  destruct (getMlsMessage raw) as [[a|?|?|] rest] eqn:E; try discriminate. destruct rest; [|discriminate]. apply Ok_inj in H. subst a.
  apply sized_wrapped in E. destruct m; try discriminate. apply Ok_inj in Hm. now subst.
Qed.
Theorem join_raw_work raw w kpp now : opens_no_longer C -> unmarshalWelcome raw = Ok w ->
  snd (countJoin w kpp now) <= (N.log2 (2 * lenN raw + 1) + 1) * (2 * lenN raw + 1) + 120.
Proof.
  intros NL H. apply welcome_holds in H. pose proof (n_log_n (2 * lenN (w_encryptedGroupInfo w)) (2 * lenN raw) ltac:(lia)).
  pose proof (join_work w kpp now NL). lia.
Qed.
Theorem joined_size raw w kpp now g : opens_no_longer C -> unmarshalWelcome raw = Ok w -> groupFromWelcome w kpp now = Ok g ->
  lenN (gr_tree g) <= 2 * lenN raw.
Proof.
  intros NL H J. apply welcome_holds in H. apply groupFromWelcome_inv in J. destruct J as (ref & s & _ & _ & _ & J). apply groupFromSecrets_inv in J.
  destruct J as (psk & gi & r & t & signer & epoch & init & interim & me & priv & _ & Egi & Er & Et & _ & _ & _ & _ & _ & _ & _ & _ & _ & -> & _).
  apply (groupInfo_holds _ _ _ _ NL) in Egi. unfold tree_in in Egi. rewrite Er in Egi.
  destruct (received_work r t (gi_groupContext gi) now Et) as [L _]. cbn [gr_tree].
  destruct (load t) as [h p] eqn:El. apply load_value in El. destruct El as (_ & _ & El). cbn [snd]. unfold lenN in *. lia.
Qed.

(** ** Sending *)
Lemma ratchet_start g li ct : ratchetWork g li ct 0 = 0.
Proof. unfold ratchetWork. cbv zeta. destruct (rbind _ _); reflexivity. Qed.
Lemma encrypt_work g content pc guard : well_shaped (gr_value g) -> snd (countEncrypt g content pc guard) <= lenN (gr_tree g) + 9.
Proof.
  intros W. unfold countEncrypt. cbv zeta. pay (lenN (gr_tree g) + 2).
  - eapply N.le_trans; [now apply secret_work|]. rewrite ratchet_start. lia.
  - pay1. pay 6; [apply N.le_refl|]. none.
Qed.
Theorem send_work g data rnd guard : obtained g -> snd (countSend g data rnd guard) <= lenN (gr_tree g) + 10.
Proof.
  intros O. unfold countSend. cbv zeta. pay1. eapply N.le_trans; [apply encrypt_work, sane_shape, obtained_sane, O|lia].
Qed.

(** ** Inviting *)
Lemma secretsFor_work cs s info : forall kps rnds, snd (countSecretsFor cs s info kps rnds) <= 2 * lenN kps.
Proof.
  induction kps as [|kp r IH]; intros rnds; [none|]. cbn [countSecretsFor]. assert (lenN (kp :: r) = lenN r + 1) by (unfold lenN; cbn [length]; lia).
  pay1. pay1. pay (2 * lenN r); [apply IH|]. none.
Qed.
Ltac remains n := match goal with |- _ <= ?b => replace b with n by lia end.
Lemma finishWelcome_work g kps h t r1 r2 rs guard : well_shaped (gr_value g) -> well_shaped (deref h t) ->
  snd (countFinishWelcome g kps h t r1 r2 rs guard) <= lenN t + lenN (gr_tree g) + 2 * lenN kps + 23.
Proof.
  intros W W'. unfold countFinishWelcome. cbv zeta.
  pay (lenN t); [rewrite <- (lenN_deref h t); now apply any_root_work|]. remains (lenN (gr_tree g) + 2 * lenN kps + 23).
  do 2 free. pay1. pay1. remains (lenN (gr_tree g) + 2 * lenN kps + 21). do 3 (pay 2; [apply N.le_refl|]). remains (lenN (gr_tree g) + 2 * lenN kps + 15).
  free. pay1. pay 5; [apply N.le_refl|]. remains (lenN (gr_tree g) + 2 * lenN kps + 9). pay (2 * lenN kps); [apply secretsFor_work|].
  remains (lenN (gr_tree g) + 9). pay (lenN (gr_tree g) + 9); [now apply encrypt_work|]. none.
Qed.
Lemma invite_grown g kps h t : obtained g -> applyH (gr_heap g) (gr_tree g) (map PAdd kps) [gr_myLeafIndex g] = Ok (h, t) ->
  well_shaped (deref h t) /\ lenN t + 1 <= 2 * (lenN (gr_tree g) + 1) + 4 * lenN kps.
Proof.
  intros O E. pose proof (obtained_sane g O) as Sn. pose proof (sane_shape g Sn) as W. pose proof (proj1 (sane_consistent g Sn)) as P.
  destruct (applyH_value (gr_heap g) (gr_tree g) (map PAdd kps) [gr_myLeafIndex g] P) as [V Pr].
  rewrite E in V. cbn [rmap] in V. symmetry in V. change (value (h, t)) with (deref h t) in V.
  destruct (apply_growth _ _ _ (deref h t) W V) as [W' G]. change (gr_value g) with (deref (gr_heap g) (gr_tree g)) in G. rewrite !lenN_deref in G.
  assert (Lm : lenN (map PAdd kps) = lenN kps) by (unfold lenN; now rewrite map_length). rewrite Lm in G. now split.
Qed.
Lemma invite_count g kps r1 r2 rs guard :
  snd (countInvite g kps r1 r2 rs guard) = 0 \/
  exists h t, applyH (gr_heap g) (gr_tree g) (map PAdd kps) [gr_myLeafIndex g] = Ok (h, t) /\
    snd (countInvite g kps r1 r2 rs guard) = snd (countFinishWelcome g kps h t r1 r2 rs guard).
Proof.
  unfold countInvite. destruct kps as [|kp r]; [left; reflexivity|].
  destruct (applyH _ _ _ _) as [[h t]|?|?|]; [right|left; reflexivity..]. exists h, t. split; [reflexivity|].
  destruct (countFinishWelcome _ _ _ _ _ _ _ _). reflexivity.
Qed.
Theorem invite_work g kps r1 r2 rs guard : obtained g ->
  snd (countInvite g kps r1 r2 rs guard) <= 3 * lenN (gr_tree g) + 6 * lenN kps + 24.
Proof.
  intros O. destruct (invite_count g kps r1 r2 rs guard) as [->|(h & t & E & ->)]; [apply N.le_0_l|].
  destruct (invite_grown g kps h t O E) as [W G].
  pose proof (finishWelcome_work g kps h t r1 r2 rs guard (sane_shape g (obtained_sane g O)) W). lia.
Qed.
End WithCrypto.
Lemma all_erased :
  (forall (C : crypto) gid kpp rnd, fst (countCreate gid kpp rnd) = createGroup gid kpp rnd) /\
  (forall (C : crypto) w kpp now, fst (countJoin w kpp now) = groupFromWelcome w kpp now) /\
  (forall (C : crypto) g data rnd guard, fst (countSend g data rnd guard) = createApplicationMessage g data rnd guard) /\
  (forall (C : crypto) g kps r1 r2 rs guard, fst (countInvite g kps r1 r2 rs guard) = createWelcome g kps r1 r2 rs guard).
Proof. split; [exact @erase_create|]. split; [exact @erase_join|]. split; [exact @erase_send|exact @erase_invite]. Qed.
