(** Facts about all the groups that the exported operations give. *)
From Coq Require Import Lia.
From Verif Require Export SpecObtained JoinFacts FrameFacts TreeStepFacts GroupFacts HistoryFacts.

Lemma same_but_unmerged_nth t t' i : same_but_unmerged t t' ->
  match nth_error t i, nth_error t' i with
  | None, None => True
  | Some None, Some None => True
  | Some (Some n), Some (Some n') => grown_node n n'
  | _, _ => False
  end.
Proof.
  intros H. revert i. induction H as [|o o' t t' Ho _ IH]; intros [|i]; cbn; auto; try (destruct o, o'; auto; fail). apply IH.
Qed.
Lemma same_but_unmerged_length t t' : same_but_unmerged t t' -> length t' = length t.
Proof. induction 1; cbn; congruence. Qed.
Lemma same_but_unmerged_shaped t t' : same_but_unmerged t t' -> well_shaped t -> well_shaped t'.
Proof.
  intros H [->|(k & (F1 & F2) & K)]; [left; inversion H; reflexivity|]. right. exists k. split; [split; [assumption|]|].
  - unfold lenN in *. now rewrite (same_but_unmerged_length _ _ H).
  - intros p n Hp Hn. unfold at_path in *. pose proof (same_but_unmerged_nth t t' (N.to_nat (number k p)) H) as G. specialize (K p). unfold at_path in K.
    destruct (nth_error t' (N.to_nat (number k p))) as [o'|]; [|discriminate]. subst o'. destruct (nth_error t (N.to_nat (number k p))) as [[m|]|]; try contradiction.
    specialize (K m Hp eq_refl). destruct m, n; cbn in *; tauto.
Qed.

Section WithCrypto.
Context {C : crypto}.

Lemma withHeap_sane g h : same_but_unmerged (gr_value g) (gr_value (withHeap g h)) -> sane g -> sane (withHeap g h).
Proof.
  intros H [[[P1 P2] P3] S I E]. constructor; auto.
  - split; [|exact P3]. split; [|exact P2]. intros p Hp. cbn [withHeap gr_heap gr_tree] in *.
    apply In_nth_error in Hp. destruct Hp as (i & Hi). pose proof (same_but_unmerged_nth _ _ i H) as G.
    unfold gr_value, deref in G. cbn [withHeap gr_heap gr_tree] in G. rewrite !nth_error_map, Hi in G. cbn [option_map] in G.
    apply nth_error_In in Hi. apply P1 in Hi. apply nth_error_Some in Hi. destruct (nth_error (gr_heap g) p); [|congruence]. apply nth_error_Some.
    destruct (nth_error h p); [discriminate|contradiction].
  - eapply same_but_unmerged_shaped; eauto.
Qed.

Lemma derivePath_len cs t : forall path priv s priv' s', derivePath cs t priv s path = Ok (priv', s') -> length priv' = length priv.
Proof.
  induction path as [|x path IH]; intros priv s priv' s' H; cbn in H.
  - apply Ok_inj in H. apply pair_equal_spec in H. now destruct H as [<- _].
  - apply rbind_ok in H. destruct H as (ps & _ & H). apply rbind_ok in H. destruct H as ([n|] & _ & H); [|discriminate].
    apply rbind_ok in H. destruct H as (np & _ & H). apply rbind_ok in H. destruct H as (p1 & E & H). apply IH in H. apply setN_len in E. unfold lenN in E. lia.
Qed.
Lemma decryptPathSecrets_len cs t ctx s r path priv c priv' : decryptPathSecrets cs t ctx s r path priv = Ok (c, priv') -> length priv' = length priv.
Proof.
  unfold decryptPathSecrets. cbv zeta. intros H. apply rbind_ok in H. destruct H as (fdp & _ & H). apply rbind_ok in H. destruct H as ([] & _ & H).
  destruct (position _ _) as [i|]; [|discriminate]. apply rbind_ok in H. destruct H as (upn & _ & H).
  destruct (if nodeIndexOf r <? nodeIndexOf s then _ else _) as [cp|]; [|discriminate].
  apply rbind_ok in H. destruct H as (res & _ & H). apply rbind_ok in H. destruct H as ([] & _ & H). apply rbind_ok in H. destruct H as ([[ri np]|] & _ & H); [|discriminate].
  apply rbind_ok in H. destruct H as (ct & _ & H). apply rbind_ok in H. destruct H as (ps & _ & H). apply rbind_ok in H. destruct H as ([n|] & _ & H); [|discriminate].
  apply rbind_ok in H. destruct H as (np' & _ & H). apply rbind_ok in H. destruct H as (p1 & E1 & H). apply rbind_ok in H. destruct H as ([p2 s2] & E2 & H).
  apply rbind_ok in H. destruct H as (cs' & _ & H). apply Ok_inj in H. apply pair_equal_spec in H. destruct H as [_ <-].
  apply derivePath_len in E2. apply setN_len in E1. unfold lenN in E1. lia.
Qed.

Lemma carryPriv_len tl nl priv p : carryPriv tl nl priv = Ok p -> length p = nl.
Proof.
  unfold carryPriv. destruct (Nat.ltb_spec (length priv) (Nat.min tl nl)); [discriminate|]. intros H0. apply Ok_inj in H0. subst p.
  rewrite app_length, firstn_length, repeat_length. lia.
Qed.

Lemma processPath_inv g li path h t priv now h1 t1 th c priv1 : processPath g li path h t priv now = Ok (h1, t1, th, c, priv1) ->
  mergeUpdatePathH (gc_cipherSuite (gr_context g)) h t li path = Ok (h1, t1) /\ length priv1 = length priv.
Proof.
  unfold processPath. cbv zeta. intros H. apply rbind_ok in H. destruct H as ([] & _ & H). apply rbind_ok in H. destruct H as (sn & _ & H).
  apply rbind_ok in H. destruct H as ([sk ek] & _ & H). destruct sn as [sn|]; [|discriminate].
  apply rbind_ok in H. destruct H as (creds & _ & H). apply rbind_ok in H. destruct H as ([] & _ & H). apply rbind_ok in H. destruct H as ([] & _ & H).
  apply rbind_ok in H. destruct H as ([h2 t2] & Em & H). apply rbind_ok in H. destruct H as (th' & _ & H). apply rbind_ok in H. destruct H as ([c' p'] & Ed & H).
  apply Ok_inj in H. inversion H; subst. split; [assumption|]. now apply decryptPathSecrets_len in Ed.
Qed.

Lemma mergeH_length cs h t li path h' t' : mergeUpdatePathH cs h t li path = Ok (h', t') -> length t' = length t.
Proof.
  unfold mergeUpdatePathH. intros H. apply rbind_ok in H. destruct H as (v & _ & H). apply rbind_ok in H. destruct H as (dp & _ & H). revert H.
  generalize (nodeIndexOf li :: dp). intros l. revert h t. induction l as [|x l IH]; intros h t H; cbn [foldM] in H.
  - apply Ok_inj in H. apply pair_equal_spec in H. now destruct H as [_ <-].
  - apply rbind_ok in H. destruct H as ([h2 t2] & E & H). apply IH in H. rewrite H. unfold writeBack, alloc in E. cbn [fst snd] in E.
    apply rbind_ok in E. destruct E as ([n|] & _ & E); apply rbind_ok in E; destruct E as (t3 & E3 & E); apply Ok_inj in E; apply pair_equal_spec in E; destruct E as [_ <-];
      apply setN_len in E3; unfold lenN in E3; lia.
Qed.

Lemma processCommit_sane g ac ids psks now g' r : sane g -> processCommit g ac ids psks now = (g', r) -> sane g'.
Proof.
  intros S H. destruct r as [[]|e|p|].
  - unfold processCommit in H. destruct (fc_body (ac_content ac)) as [?|?|c]; try discriminate.
    destruct (checkCommit _ _ _) as [[ps ss]|?|?|]; try discriminate. destruct (applyH _ _ _ _) as [[h t]|?|?|] eqn:Ea; try discriminate.
    destruct (finishCommit _ _ _ _ _ _ _ _) as [g1|?|?|] eqn:Ef; try discriminate. assert (g1 = g') by congruence. subst g1. clear H.
    destruct S as [[Pr Hlen] Sh Hi He].
    destruct (history_shape (gr_heap g, gr_tree g) (h, t)) as [Pr1 Sh1]; auto.
    { eapply steps_more; [eapply step_apply; exact Ea|apply steps_none]. }
    cbn [fst snd] in Pr1, Sh1.
    unfold finishCommit in Ef. cbv zeta in Ef. apply rbind_ok in Ef. destruct Ef as (priv & Epriv & Ef). apply rbind_ok in Ef. destruct Ef as (nh & _ & Ef).
    apply rbind_ok in Ef. destruct Ef as ([[[[h1 t1] th] cst] priv1] & Epath & Ef). apply rbind_ok in Ef. destruct Ef as ([[[[ctx interim] psk] es] ini] & Enext & Ef). apply Ok_inj in Ef. subst g'.
    assert (X : proper h1 t1 /\ well_shaped (deref h1 t1) /\ length priv1 = length t1).
    { apply carryPriv_len in Epriv. destruct (c_path c) as [path|].
      - apply processPath_inv in Epath. destruct Epath as [Em El].
        destruct (history_shape (h, t) (h1, t1)) as [Pr2 Sh2]; auto.
        { eapply steps_more; [eapply step_merge; exact Em|apply steps_none]. }
        cbn [fst snd] in *. splits; auto. apply mergeH_length in Em. lia.
      - apply rbind_ok in Epath. destruct Epath as (th' & _ & Epath). apply Ok_inj in Epath. inversion Epath; subst. auto. }
    destruct X as (X1 & X2 & X3). constructor; cbn [gr_myLeafIndex gr_context].
    + split; cbn; auto.
    + exact X2.
    + exact Hi.
    + unfold nextEpoch in Enext. cbv zeta in Enext. apply rbind_ok in Enext. destruct Enext as (cf & _ & Enext). apply rbind_ok in Enext. destruct Enext as (it & _ & Enext).
      apply rbind_ok in Enext. destruct Enext as (jo & _ & Enext). apply rbind_ok in Enext. destruct Enext as (pk & _ & Enext). apply rbind_ok in Enext. destruct Enext as (ep & _ & Enext).
      apply rbind_ok in Enext. destruct Enext as (ii & _ & Enext). apply Ok_inj in Enext. inversion Enext; subst. cbn. unfold u64. apply N.mod_lt. discriminate.
  - destruct (processCommit_error g ac ids psks now g' e (proj1 (sane_consistent _ S)) H) as (h & -> & Hs). now apply withHeap_sane.
  - assert (g' = g); [|now subst]. unfold processCommit in H. destruct (fc_body (ac_content ac)) as [?|?|c]; try congruence.
    destruct (checkCommit _ _ _) as [[ps ss]|?|?|]; try congruence. destruct (applyH _ _ _ _) as [[h t]|?|?|] eqn:Ea; try congruence.
    destruct (finishCommit _ _ _ _ _ _ _ _) as [g1|?|?|] eqn:Ef; congruence.
  - assert (g' = g); [|now subst]. unfold processCommit in H. destruct (fc_body (ac_content ac)) as [?|?|c]; try congruence.
    destruct (checkCommit _ _ _) as [[ps ss]|?|?|]; try congruence. destruct (applyH _ _ _ _) as [[h t]|?|?|] eqn:Ea; try congruence.
    destruct (finishCommit _ _ _ _ _ _ _ _) as [g1|?|?|] eqn:Ef; congruence.
Qed.

Lemma created_sane gid kpp rnd g : createGroup gid kpp rnd = Ok g -> sane g.
Proof.
  intros H. unfold createGroup in H. cbv zeta in H. rewrite first_leaf in H. cbn [rbind] in H.
  apply rbind_ok in H. destruct H as (th & _ & H). apply rbind_ok in H. destruct H as (d & _ & H). apply rbind_ok in H. destruct H as (tag & _ & H).
  apply rbind_ok in H. destruct H as (interim & _ & H). apply rbind_ok in H. destruct H as (psk & _ & H). apply rbind_ok in H. destruct H as (ini & _ & H). apply Ok_inj in H. subst g.
  constructor; [|unfold gr_value; cbn [gr_heap gr_tree]; right; exists 0%nat; apply single_shaped|reflexivity|reflexivity].
  split; [|reflexivity]. split; cbn [gr_heap gr_tree].
  - intros p [E|[]]. injection E as <-. cbn. lia.
  - intros [|i] [|j] p; cbn; try (destruct i; discriminate); try (destruct j; discriminate). reflexivity.
Qed.

Lemma joined_sane w kpp now g : groupFromWelcome w kpp now = Ok g -> sane g.
Proof.
  intros H. apply groupFromWelcome_inv in H. destruct H as (ref & s & Eref & Es & Epsks & H). apply groupFromSecrets_inv in H.
  destruct H as (psk & gi & raw & t & signer & epoch & init & interim & me & priv & Epsk & Egi & Eraw & Et & Esg & Esig & Etag & Ecs & Ev & Eep & Ein & Eint & Eme & -> & priv0 & Ep0 & Ep).
  destruct (load t) as [h pt] eqn:El. destruct (load_value t h pt El) as (V & P & L). cbn [fst snd].
  assert (Hne : t <> []). { intros ->. apply getLeaf_some in Esg. destruct (N.to_nat _); discriminate. }
  destruct (decoded_tree raw t Et Hne) as ((k & F) & _). pose proof (verifyIntegrity_shaped k t _ now F Ev) as Sh.
  constructor; cbn [gr_myLeafIndex gr_context].
  - split; [exact P|]. cbn [gr_tree gr_privTree]. rewrite L. apply setN_len in Ep0. unfold lenN in Ep0. rewrite repeat_length in Ep0.
    destruct (gs_pathSecret s); [apply processPathSecret_len in Ep; unfold lenN in Ep|apply Ok_inj in Ep; subst]; lia.
  - right. exists k. unfold gr_value. cbn [gr_heap gr_tree]. now rewrite V.
  - apply findLeaf_some in Eme. destruct Eme as (l' & e & Hme & _). destruct F as [F1 F2]. rewrite (numLeaves_tree t k F1 F2) in Hme.
    unfold u32. unfold fits, leaf_count in *. assert (2 ^ N.of_nat k <= 2 ^ 31) by (apply N.pow_le_mono_r; lia). change (2 ^ 32) with (2 * 2 ^ 31). lia.
  - unfold decryptGroupInfo in Egi. cbv zeta in Egi. apply rbind_ok in Egi. destruct Egi as ([key nonce] & _ & Egi). apply rbind_ok in Egi. destruct Egi as (rawi & _ & Egi).
    unfold unmarshal in Egi. destruct (getGroupInfo rawi) as [[x|?|?|] [|? ?]] eqn:Er; try discriminate. apply Ok_inj in Egi. subst x.
    apply groupInfo_CAN in Er. destruct Er as [Wg _]. apply Wg.
Qed.

Lemma message_sane g raw now g' r : sane g -> unmarshalAndProcessMessage g raw now = (g', r) -> sane g'.
Proof.
  intros S H. apply acted_on_or in H. destruct H as [[-> _]|(ac & _ & _ & _ & H)]; [exact S|].
  destruct (fc_body (ac_content ac)) as [d|p|c].
  - destruct H as (-> & _). exact S.
  - unfold noData, processProposal in H. assert (E : g' = g \/ exists ps, g' = withPending g ps).
    { destruct (fc_body (ac_content ac)) as [|p'|]; cbn [fst snd] in H; try (left; congruence). destruct (generateProposalRef _ _); cbn [fst snd] in H; try (left; congruence). right. eexists. apply pair_equal_spec in H. now destruct H as [-> _]. }
    destruct E as [->|[ps ->]]; [exact S|]. destruct S. constructor; auto.
  - unfold noData in H. destruct (processCommit g ac [] [] now) as [g1 r1] eqn:E. cbn [fst snd] in H. apply pair_equal_spec in H. destruct H as [-> _]. eapply processCommit_sane; eauto.
Qed.

Theorem obtained_sane g : obtained g -> sane g.
Proof.
  induction 1 as [? ? ? ? H|? ? ? ? H|g kps rs ri rh rg g' r _ IH H|g raw now g' r _ IH H].
  - eapply created_sane; eauto.
  - eapply joined_sane; eauto.
  - destruct (createWelcome_frame g kps rs ri rh rg g' r (proj1 (sane_consistent _ IH)) H) as (h & -> & Hs). now apply withHeap_sane.
  - eapply message_sane; eauto.
Qed.
End WithCrypto.
