(** When joining a group neither panics nor hangs. *)
From Verif Require Export CrashFacts.
From Verif Require Import RemovedFacts OutcomeFacts JoinPathFacts IntegrityFacts JoinFacts.

Section WithCrypto.
Context {C : crypto}.

Lemma aos_trans p q r : ancestor_or_self p q -> ancestor_or_self q r -> ancestor_or_self p r.
Proof. intros (a & ->) (b & ->). exists (a ++ b). now rewrite app_assoc. Qed.

Section Tree.
Context (cs : N) (d : suiteDesc) (Hd : cipherSuiteDescriptions cs = Some d) (k : nat) (t : ratchetTree) (Sh : shaped k t) (Hs : leaves_safe t)
  (Hu : unmerged_in_range k t).

Lemma nc_parentHashAt p pn : (length p < k)%nat -> no_crash (verifyParentHashAt cs t (number k (p ++ [false])) (number k (p ++ [true])) pn).
Proof.
  intros Hp. unfold verifyParentHashAt. cbv zeta.
  nc; [eapply nc_computeTreeHash; eauto; now apply snoc_in|]. nc; [eapply nc_computeTreeHash; eauto; now apply snoc_in|].
  nc; [eapply nc_computeParentHash; eauto|]. nc; [eapply nc_computeParentHash; eauto|].
  destruct (find_found k t p false a1 Sh Hu Hp) as (r1 & -> & o1 & E1 & _). cbn [rbind]. rewrite E1. cbn [rbind].
  destruct (find_found k t p true a2 Sh Hu Hp) as (r2 & -> & o2 & E2 & _). cbn [rbind]. rewrite E2. exact I.
Qed.

Lemma nc_parentHashes : no_crash (verifyParentHashes cs t).
Proof.
  pose proof (shaped_full _ _ Sh) as F. destruct (allPaths_ok k t F) as (ps & E & Hps). unfold verifyParentHashes. rewrite E.
  assert (H : forall p, In p ps -> in_tree k p) by (intros; now apply Hps). clear E Hps. induction ps as [|p ps IH]; [exact I|].
  cbn [map verifyParentHashesFrom]. assert (Hp : in_tree k p) by (apply H; cbn; auto). rewrite (at_path_getN k) by auto. cbn [rbind].
  assert (N : no_crash (verifyParentHashesFrom cs t (map (number k) ps))) by (apply IH; intros; apply H; cbn; auto).
  destruct (at_path k t p) as [n|] eqn:A; [|exact N]. pose proof (proj2 Sh p n Hp A) as Hn.
  destruct (Nat.eq_dec (length p) k) as [El|Nl].
  - rewrite (proj1 (path_leaf k (proj1 F) p El)). exact N.
  - assert (Hlt : (length p < k)%nat) by (unfold in_tree in Hp; lia). rewrite (path_children k) by (auto; apply F).
    destruct n as [l|pn]; [exfalso; apply Nl, Hn|]. nc; [apply nc_falseOnErr, nc_parentHashAt; auto|]. destruct a; [exact N|exact I].
Qed.

Context (OK : crypto_ok C) (Hv : forall li l, leaf_at t li = Some l -> usable_key d (ln_signatureKey l)) (Hseed : derives_keys d).

Lemma nc_verifyLeaves ctx creds now : gc_cipherSuite ctx = cs -> (forall li l, leaf_at t li = Some l -> wf_leafNode l) ->
  forall lis sk ek, (forall li, In li lis -> li < leaf_count k) -> no_crash (verifyLeaves t ctx creds now lis sk ek).
Proof.
  intros Hc Hw. induction lis as [|li lis IH]; intros sk ek Hl; [exact I|]. cbn [verifyLeaves].
  rewrite (getLeaf_at k) by (auto; apply Hl; cbn; auto). cbn [rbind]. destruct (leaf_at t li) as [l|] eqn:El; [|apply IH; intros; apply Hl; cbn; auto].
  nc; [apply (nc_leafVerify cs d Hd); [eapply Hv; eauto|eapply Hw; eauto|exact Hc]|]. apply IH. intros; apply Hl; cbn; auto.
Qed.

Lemma nc_unmergedLeaf p u : forall n q fuel, length q = n -> in_tree k q -> (n <= fuel)%nat ->
  no_crash (verifyUnmergedLeaf fuel t (leaf_count k) p u (number k q)).
Proof.
  pose proof (shaped_full _ _ Sh) as F. induction n as [|n IH]; intros q fuel Hn Hq Hf; rewrite verifyUnmergedLeaf_eq.
  - destruct q; [|discriminate]. rewrite (path_parent_root k (proj1 F)). exact I.
  - destruct (exists_last (l := q)) as (q' & b & ->); [intros ->; discriminate|]. rewrite app_length in Hn. cbn [length] in Hn.
    assert (Hlt : (length q' < k)%nat) by (unfold in_tree in Hq; rewrite app_length in Hq; cbn in Hq; lia).
    rewrite (path_parent k (proj1 F)) by auto. destruct (number k q' =? p); [exact I|]. assert (Hq' : in_tree k q') by (unfold in_tree; lia).
    rewrite (at_path_getN k) by auto. cbn [rbind]. nc.
    + destruct (at_path k t q') as [[l|pn]|] eqn:A; try exact I; [|apply no_crash_guard]. pose proof (proj2 Sh q' _ Hq' A) as X. cbn in X. lia.
    + destruct fuel as [|fuel]; [lia|]. apply IH; auto; lia.
Qed.

Lemma nc_verifyParents : forall xs ek, (forall x, In x xs -> x < lenN t) -> no_crash (verifyParents t xs ek).
Proof.
  pose proof (shaped_full _ _ Sh) as F. induction xs as [|x xs IH]; intros ek Hx; [exact I|]. cbn [verifyParents].
  nc; [apply nc_getN; apply Hx; cbn; auto|]. assert (N : forall ek, no_crash (verifyParents t xs ek)) by (intros; apply IH; intros; apply Hx; cbn; auto).
  destruct a as [[l|pn]|]; auto. nc; [|ncg; auto]. rewrite (numLeaves_tree t k (proj1 F) (proj2 F)).
  apply nc_foldM. intros [] u Iu. rewrite nodeIndexOf_designated.
  destruct (number_onto k x) as (p & Hp & <-). { rewrite <- (proj2 F). apply Hx; cbn; auto. }
  assert (Hr : designated u < leaf_count k). { apply (Hu p pn u Hp); auto. unfold at_path. apply getN_ok in H. rewrite H. reflexivity. }
  rewrite <- (leafPath_number k) by assumption. eapply nc_unmergedLeaf; [reflexivity|apply leafPath_in|].
  pose proof (leafPath_in k (designated u)) as X. unfold in_tree in X. pose proof (fits_depth k (proj1 F)). lia.
Qed.

Lemma nc_verifyIntegrity ctx now : gc_cipherSuite ctx = cs -> (forall li l, leaf_at t li = Some l -> wf_leafNode l) -> no_crash (verifyIntegrity t ctx now).
Proof.
  intros Hc Hw. pose proof (shaped_full _ _ Sh) as F. unfold verifyIntegrity. cbv zeta. rewrite Hc. nc; [eapply nc_rootTreeHash; eauto|]. ncg.
  nc; [apply nc_parentHashes|]. ncg. unfold supportedCreds. rewrite (members_ok k t Sh). cbn [rbind].
  nc; [apply nc_verifyLeaves; auto; intros li Hli; rewrite (numLeaves_tree t k (proj1 F) (proj2 F)) in Hli; now apply upto_In in Hli|].
  apply nc_verifyParents. intros x Hx. now apply upto_In in Hx.
Qed.

Lemma nc_findLeafFrom l : no_crash (putLeafNode l) -> forall lis, (forall li, In li lis -> li < leaf_count k) -> no_crash (findLeafFrom t l lis).
Proof.
  intros Hl. induction lis as [|li lis IH]; intros Hlt; [exact I|]. cbn [findLeafFrom]. rewrite (getLeaf_at k) by (auto; apply Hlt; cbn; auto). cbn [rbind].
  assert (N : no_crash (findLeafFrom t l lis)) by (apply IH; intros; apply Hlt; cbn; auto).
  destruct (leaf_at t li) as [n|] eqn:E; [|exact N]. destruct (negb _); [exact N|].
  assert (Nn : no_crash (putLeafNode n)). { eapply (proj1 (leaves_safe_at t (or_intror (ex_intro _ k Sh))) Hs); eauto. }
  destruct (putLeafNode l), (putLeafNode n); auto; exact I.
Qed.

Lemma findLeafFrom_key l : forall lis me, findLeafFrom t l lis = Ok (Some me) -> exists n, getLeaf t me = Ok (Some n) /\ ln_encryptionKey n = ln_encryptionKey l.
Proof.
  induction lis as [|li lis IH]; intros me; cbn [findLeafFrom]; [discriminate|]. intros H. rinv. destruct v as [n|]; [|auto].
  destruct (bytes_eqb (ln_encryptionKey n) (ln_encryptionKey l)) eqn:B; cbn [negb] in H; [|auto].
  destruct (putLeafNode l), (putLeafNode n); try discriminate. apply Ok_inj in H. destruct (bytes_eqb a a0) eqn:B2; [|discriminate]. injection H as <-.
  exists n. split; [assumption|now apply bytes_eqb_true].
Qed.

Lemma nc_pathLoop : forall n q fuel priv s, length q = n -> in_tree k q -> (n <= fuel)%nat -> lenN priv = lenN t ->
  (forall p, above p q -> at_path k t p <> None) -> no_crash (processPathSecretLoop fuel cs t priv s (number k q)).
Proof.
  pose proof (shaped_full _ _ Sh) as F. induction n as [|n IH]; intros q fuel priv s Hn Hq Hf Hp Ha; rewrite loop_step, (numLeaves_tree t k (proj1 F) (proj2 F)).
  - destruct q; [|discriminate]. rewrite (path_parent_root k (proj1 F)). exact I.
  - destruct (exists_last (l := q)) as (q' & b & ->); [intros ->; discriminate|]. rewrite app_length in Hn. cbn [length] in Hn.
    assert (Hlt : (length q' < k)%nat) by (unfold in_tree in Hq; rewrite app_length in Hq; cbn in Hq; lia).
    rewrite (path_parent k (proj1 F)) by auto. assert (Hq' : in_tree k q') by (unfold in_tree; lia).
    nc; [eapply nc_deriveSecret; eauto|]. rewrite (at_path_getN k) by auto. cbn [rbind].
    destruct (at_path k t q') as [nd|] eqn:A; [|exfalso; eapply (Ha q'); [now exists b, []|exact A]].
    nc; [eapply nc_nodePriv; eauto|]. nc; [apply nc_setN; rewrite Hp; now apply in_tree_lt|]. destruct fuel as [|fuel]; [lia|].
    apply IH; auto; [lia|lia|apply setN_len in H1; congruence|]. intros p Hpq. apply Ha. apply above_snoc. auto.
Qed.

Lemma nc_processPathSecret q priv s : in_tree k q -> lenN priv = lenN t -> (forall p, ancestor_or_self p q -> at_path k t p <> None) ->
  no_crash (processPathSecret cs t priv s (number k q)).
Proof.
  intros Hq Hp Ha. pose proof (shaped_full _ _ Sh) as F. unfold processPathSecret. rewrite (at_path_getN k) by auto. cbn [rbind].
  destruct (at_path k t q) as [nd|] eqn:A; [|exfalso; apply (Ha q); [apply aos_above; auto|exact A]].
  nc; [eapply nc_nodePriv; eauto|]. nc; [apply nc_setN; rewrite Hp; now apply in_tree_lt|].
  eapply nc_pathLoop; [reflexivity|assumption| |apply setN_len in H0; congruence|intros p X; apply Ha, aos_above; auto].
  pose proof (fits_depth k (proj1 F)). unfold in_tree in Hq. lia.
Qed.
End Tree.

Lemma nc_welcomeKeyNonce cs d a b : crypto_ok C -> cipherSuiteDescriptions cs = Some d ->
  no_crash (welcomeKeyNonce cs a b) /\ forall key nonce, welcomeKeyNonce cs a b = Ok (key, nonce) -> lenN nonce = 12.
Proof.
  intros OK Hd. split.
  - unfold welcomeKeyNonce, extractWelcomeSecret. nc.
    { nc; [eapply nc_extract; eauto|eapply nc_deriveSecret; eauto]. }
    nc; [eapply nc_suiteNonceSize; eauto|]. nc; [eapply nc_expand; eauto; now apply (nonceSize_le cs d Hd)|].
    nc; [eapply nc_suiteKeySize; eauto|]. nc; [eapply nc_expand; eauto; now apply (keySize_le cs d Hd)|exact I].
  - unfold welcomeKeyNonce. intros key nonce H. rinv. apply pair_equal_spec in H. destruct H as [-> ->].
    apply (expand_len cs) in E1; auto. destruct (nonceSize_le cs d Hd _ E0). lia.
Qed.

Lemma nc_unmarshal {A} (g : reader A) raw : SAFE g -> no_crash (unmarshal g raw).
Proof. apply unmarshal_SAFE. Qed.

Theorem welcome_no_crash w kpp now d0 d : crypto_ok C -> wf_keyPackage (kpp_public kpp) ->
  cipherSuiteDescriptions (kp_cipherSuite (kpp_public kpp)) = Some d0 -> cipherSuiteDescriptions (w_cipherSuite w) = Some d ->
  (forall gs gi t, opens_to w kpp gs gi t -> welcome_fits kpp gs gi t) -> no_crash (groupFromWelcome w kpp now).
Proof.
  intros OK Hw Hd0 Hd Hfit. unfold groupFromWelcome. nc.
  { unfold keyPackageRef. nc; [auto with wsafe|]. eapply nc_refHash; eauto. }
  nc. { unfold decryptGroupSecrets. destruct (findSecret _ _); [|exact I]. nc; [eapply nc_decryptWithLabel; eauto|]. apply nc_unmarshal, groupSecrets_SAFE. }
  ncg. destruct (lenN (gs_psks a0) =? 0) eqn:Ep; cbn [guard rbind]; [|exact I]. apply N.eqb_eq in Ep.
  assert (Epsk : gs_psks a0 = []) by (destruct (gs_psks a0); [reflexivity|unfold lenN in Ep; cbn in Ep; lia]).
  unfold groupFromSecrets. rewrite Epsk. nc; [eapply nc_noPsk; eauto|].
  nc. { unfold decryptGroupInfo. cbv zeta. destruct (nc_welcomeKeyNonce (w_cipherSuite w) d (gs_joinerSecret a0) a1 OK Hd) as [N Hn].
        nc; [exact N|]. destruct a2 as [key nonce]. nc; [eapply nc_aeadOpen; eauto|]. apply nc_unmarshal, groupInfo_SAFE. }
  rename a0 into gs, a1 into psk, a2 into gi. cbv zeta. destruct (findExtensionData (gi_extensions gi) 2) as [raw|] eqn:Eraw; [|exact I].
  nc; [apply nc_unmarshal, ratchetTree_SAFE|]. rename a0 into t.
  destruct (Hfit gs gi t) as ((d1 & Hd1 & Hseed & Hv) & k & Sh & Hsg & Hu & Hpath). { exists a, psk, raw. splits; auto. }
  pose proof (shaped_full _ _ Sh) as F.
  assert (Hne : t <> []). { intros ->. assert (X : number k [] < lenN (@nil (option node))) by (apply in_tree_lt; [exact F|unfold in_tree; cbn; lia]). change (lenN (@nil (option node))) with 0 in X. lia. }
  destruct (decoded_tree raw t H3 Hne) as (_ & Hnodes).
  assert (Hwl : forall li l, leaf_at t li = Some l -> wf_leafNode l).
  { intros li l El. unfold leaf_at in El. destruct (nth_error t _) as [[[x|x]|]|] eqn:En; try discriminate. injection El as ->.
    apply nth_error_In in En. rewrite Forall_forall in Hnodes. apply (Hnodes _ En). }
  assert (Hls : leaves_safe t). { apply (leaves_safe_at t (or_intror (ex_intro _ k Sh))). intros j l El. apply Hwl in El. auto with wsafe. }
  assert (Es : getLeaf t (gi_signer gi) = Ok (leaf_at t (designated (gi_signer gi)))).
  { rewrite <- (getLeaf_at k) by auto. unfold getLeaf. rewrite nodeIndexOf_designated. now rewrite (nodeIndexOf_leaf k) by (auto; apply F). }
  rewrite Es. cbn [rbind]. destruct (leaf_at t (designated (gi_signer gi))) as [signer|] eqn:Esg; [|exact I].
  nc. { unfold groupInfoVerifySignature. apply nc_falseOnPutErr; [|intros; apply (nc_verifyWithLabel _ d1 Hd1), (Hv _ _ Esg)]. unfold putGroupInfoTBS. wsafe. }
  ncg. nc. { unfold groupInfoVerifyConfirmationTag. cbv zeta. apply nc_falseOnErr. nc; [eapply nc_epoch; eauto|]. nc; [eapply nc_deriveSecret; eauto|eapply nc_verifyMAC; eauto]. }
  ncg. destruct (_ =? _) eqn:Ec; cbn [guard rbind]; [|exact I]. nc; [apply (nc_verifyIntegrity _ d1 Hd1 k t Sh Hls Hu Hv); auto|].
  nc; [eapply nc_epoch; eauto|]. nc; [eapply nc_deriveSecret; eauto|]. nc; [eapply nc_interim; eauto|].
  nc. { apply (nc_findLeafFrom k t Sh Hls); [unfold wf_keyPackage in Hw; assert (wf_leafNode (kp_leafNode (kpp_public kpp))) by apply Hw; auto with wsafe|].
        intros li Hli. rewrite (numLeaves_tree t k (proj1 F) (proj2 F)) in Hli. now apply upto_In in Hli. }
  destruct a6 as [me|]; [|exact I].
  assert (Hme : me < leaf_count k).
  { apply findLeaf_some in H10. destruct H10 as (l' & e & Hme & _). now rewrite (numLeaves_tree t k (proj1 F) (proj2 F)) in Hme. }
  assert (Hlen : lenN (repeat (@None bytes) (length t)) = lenN t) by (unfold lenN; now rewrite repeat_length).
  rewrite (nodeIndexOf_leaf k me (proj1 F) Hme), nodeIndexOf_designated.
  nc; [apply nc_setN; rewrite Hlen; now apply (leaf_in_array k t)|]. nc; [|destruct (load t); exact I].
  destruct (gs_pathSecret gs) as [ps|]; [|exact I].
  destruct (commonAncestor_leaves k me (designated (gi_signer gi)) (proj1 F) Hme Hsg) as (q & Hq & -> & A1 & A2 & A3).
  apply (nc_processPathSecret _ d1 Hd1 k t Sh OK Hv Hseed); auto; [apply setN_len in H11; congruence|].
  intros p Hp. destruct (findLeafFrom_key t _ _ _ H10) as (l & El & Ek). rewrite (getLeaf_at k) in El by auto. apply Ok_inj in El.
  apply (Hpath ltac:(discriminate) me l p El Ek); [now apply (aos_trans p q)|now apply (aos_trans p q)].
Qed.
End WithCrypto.
