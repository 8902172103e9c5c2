(** What operations on a copy of a tree leave of the tree itself. *)
From Verif Require Export SpecAgreement HeapFacts GroupFacts.

Lemma grown_refl n : grown_node n n.
Proof. destruct n as [l|p]; cbn; [reflexivity|]. exists []. rewrite app_nil_r. now destruct p. Qed.
Lemma grown_trans a b c : grown_node a b -> grown_node b c -> grown_node a c.
Proof.
  destruct a as [l|p], b as [l'|p'], c as [l''|p'']; cbn; try tauto; try congruence.
  intros [us ->] [vs ->]. cbn. exists (us ++ vs). now rewrite app_assoc.
Qed.

(** The nodes of [h] are still in [h'], with perhaps more unmerged leaves. *)
Definition extends (h h' : heap) : Prop := forall p n, nth_error h p = Some n -> exists n', nth_error h' p = Some n' /\ grown_node n n'.
Lemma extends_refl h : extends h h.
Proof. intros p n H. exists n. split; [assumption|apply grown_refl]. Qed.
Lemma extends_trans a b c : extends a b -> extends b c -> extends a c.
Proof.
  intros H1 H2 p n H. destruct (H1 p n H) as (n1 & E1 & G1). destruct (H2 p n1 E1) as (n2 & E2 & G2). exists n2. split; [assumption|].
  eapply grown_trans; eauto.
Qed.
Lemma extends_alloc h n : extends h (h ++ [n]).
Proof.
  intros p m H. exists m. split; [|apply grown_refl]. rewrite nth_error_app1; [assumption|]. apply nth_error_Some. congruence.
Qed.
Lemma extends_upd h p q li : nth_error h p = Some (NParent q) -> extends h (upd h p (NParent (addUnmergedLeaf q li))).
Proof.
  intros H i n Hn. rewrite upd_nth. destruct (Nat.eqb_spec p i) as [->|Hne].
  - rewrite H in Hn. injection Hn as <-. rewrite (proj2 (Nat.ltb_lt _ _)) by (apply nth_error_Some; congruence).
    eexists. split; [reflexivity|]. cbn. exists [li]. reflexivity.
  - exists n. split; [assumption|apply grown_refl].
Qed.

Lemma extends_foldM {X} (f : heap -> X -> res heap) l : (forall h x h', In x l -> f h x = Ok h' -> extends h h') ->
  forall h h', foldM f h l = Ok h' -> extends h h'.
Proof.
  induction l as [|x l IH]; intros Hf h h' H; cbn in H.
  - apply Ok_inj in H. subst. apply extends_refl.
  - apply rbind_ok in H. destruct H as (h1 & H1 & H2). eapply extends_trans; [eapply Hf; cbn; eauto|]. eapply IH; eauto. intros; eapply Hf; cbn; eauto.
Qed.
Lemma extends_foldM2 {X} (f : heap * ptree -> X -> res (heap * ptree)) l :
  (forall s x s', In x l -> f s x = Ok s' -> extends (fst s) (fst s')) ->
  forall s s', foldM f s l = Ok s' -> extends (fst s) (fst s').
Proof.
  induction l as [|x l IH]; intros Hf h h' H; cbn in H.
  - apply Ok_inj in H. subst. apply extends_refl.
  - apply rbind_ok in H. destruct H as (h1 & H1 & H2). eapply extends_trans; [eapply Hf; cbn; eauto|]. eapply IH; eauto. intros; eapply Hf; cbn; eauto.
Qed.

Lemma addUnmergedH_extends h t li dp h' : addUnmergedH h t li dp = Ok h' -> extends h h'.
Proof.
  unfold addUnmergedH. apply extends_foldM. intros h0 x h1 _ H. apply rbind_ok in H. destruct H as ([p|] & _ & H).
  - apply rbind_ok in H. destruct H as ([l|q] & Hn & H); [discriminate|]. apply Ok_inj in H. subst.
    apply extends_upd. unfold index in Hn. destruct (nth_error h0 p); congruence.
  - apply Ok_inj in H. subst. apply extends_refl.
Qed.

Lemma addH_extends h t l h' t' : addH h t l = Ok (h', t') -> extends h h'.
Proof.
  unfold addH. intros H. apply rbind_ok in H. destruct H as ([t1 li] & _ & H).
  apply rbind_ok in H. destruct H as (dp & _ & H). apply rbind_ok in H. destruct H as (h1 & Hu & H). cbn [alloc] in H.
  apply rbind_ok in H. destruct H as (t2 & _ & H). apply Ok_inj in H. apply pair_equal_spec in H. destruct H as [<- _].
  eapply extends_trans; [eapply addUnmergedH_extends; eauto|]. apply extends_alloc.
Qed.

Lemma updateH_extends h t li l h' t' : updateH h t li l = Ok (h', t') -> extends h h'.
Proof.
  unfold updateH, alloc. intros H. apply rbind_ok in H. destruct H as (t1 & _ & H). apply Ok_inj in H. apply pair_equal_spec in H. destruct H as [<- _].
  apply extends_alloc.
Qed.

Lemma applyH_extends h t props senders h' t' : applyH h t props senders = Ok (h', t') -> extends h h'.
Proof.
  rewrite applyH_eq. intros H. apply rbind_ok in H. destruct H as ([h1 t1] & H1 & H). apply rbind_ok in H. destruct H as (t2 & _ & H).
  apply extends_foldM2 in H1; [|intros [h0 t0] [i p] [h2 t3] _ E].
  - apply extends_foldM2 in H; [eapply extends_trans; [exact H1|exact H]|].
    intros [h0 t0] p [h2 t3] _ E. unfold addStepH in E. cbn [fst snd] in *. destruct p; try (apply Ok_inj in E; apply pair_equal_spec in E; destruct E as [<- _]; apply extends_refl).
    eapply addH_extends; eauto.
  - unfold updStepH in E. cbn [fst snd] in *. destruct p; try (apply Ok_inj in E; apply pair_equal_spec in E; destruct E as [<- _]; apply extends_refl).
    apply rbind_ok in E. destruct E as (s & _ & E). eapply updateH_extends; eauto.
Qed.

Lemma mergeUpdatePathH_extends {C : crypto} cs h t li path h' t' : mergeUpdatePathH cs h t li path = Ok (h', t') -> extends h h'.
Proof.
  unfold mergeUpdatePathH. intros H. apply rbind_ok in H. destruct H as (v & _ & H). apply rbind_ok in H. destruct H as (dp & _ & H).
  apply extends_foldM2 in H; [exact H|]. intros [h0 t0] x [h2 t3] _ E. unfold writeBack, alloc in E. cbn [fst snd] in *.
  apply rbind_ok in E. destruct E as ([n|] & _ & E); apply rbind_ok in E; destruct E as (t4 & _ & E);
    apply Ok_inj in E; apply pair_equal_spec in E; destruct E as [<- _]; [apply extends_alloc|apply extends_refl].
Qed.

Lemma extends_value h h' t : (forall p, In (Some p) t -> (p < length h)%nat) -> extends h h' -> same_but_unmerged (deref h t) (deref h' t).
Proof.
  intros HP HE. unfold same_but_unmerged, deref. induction t as [|[p|] t IH]; cbn; constructor; auto.
  - assert (Hp : (p < length h)%nat) by (apply HP; cbn; auto). destruct (nth_error h p) as [n|] eqn:E; [|apply nth_error_None in E; lia].
    destruct (HE p n E) as (n' & -> & G). exact G.
  - apply IH. intros p0 Hp0. apply HP. cbn. auto.
  - apply IH. intros p0 Hp0. apply HP. cbn. auto.
Qed.

Lemma same_but_unmerged_leaves t t' : leaves_only t -> same_but_unmerged t t' -> t' = t.
Proof.
  intros L H. induction H as [|o o' t t' Ho _ IH]; [reflexivity|]. f_equal.
  - destruct o as [[l|p]|], o' as [[l'|p']|]; cbn in Ho; try tauto; try congruence. exfalso. apply (L 0%nat p). reflexivity.
  - apply IH. intros i p. apply (L (S i) p).
Qed.

Lemma same_but_unmerged_refl t : same_but_unmerged t t.
Proof. unfold same_but_unmerged. induction t as [|[n|] t IH]; constructor; auto. apply grown_refl. Qed.

Section WithCrypto.
Context {C : crypto}.

(** After an error, the group is as before but for unmerged leaves. *)
Lemma processCommit_error g ac ids psks now g' e : proper (gr_heap g) (gr_tree g) ->
  processCommit g ac ids psks now = (g', Err e) ->
  exists h, g' = withHeap g h /\ same_but_unmerged (gr_value g) (gr_value g').
Proof.
  intros [HP _] H. unfold processCommit in H.
  assert (Same : exists h, g = withHeap g h /\ same_but_unmerged (gr_value g) (gr_value g)).
  { exists (gr_heap g). split; [now destruct g|apply same_but_unmerged_refl]. }
  destruct (fc_body (ac_content ac)) as [d|p|c]; try discriminate.
  destruct (checkCommit _ _ _) as [[ps ss]|?|?|]; try discriminate; [|injection H as <- _; exact Same].
  destruct (applyH _ _ _ _) as [[h t]|?|?|] eqn:Ea; try discriminate; [|injection H as <- _; exact Same].
  destruct (finishCommit _ _ _ _ _ _ _ _); try discriminate. injection H as <- _.
  exists h. split; [reflexivity|]. unfold gr_value, withHeap. cbn. apply extends_value; [exact HP|]. eapply applyH_extends; eauto.
Qed.

Lemma message_error g raw now g' e : proper (gr_heap g) (gr_tree g) ->
  unmarshalAndProcessMessage g raw now = (g', Err e) ->
  exists h, g' = withHeap g h /\ same_but_unmerged (gr_value g) (gr_value g').
Proof.
  intros Pr H.
  assert (Same : exists h, g = withHeap g h /\ same_but_unmerged (gr_value g) (gr_value g)).
  { exists (gr_heap g). split; [now destruct g|apply same_but_unmerged_refl]. }
  assert (HP : forall ac x, processProposal g ac = (g', Err x) -> exists h, g' = withHeap g h /\ same_but_unmerged (gr_value g) (gr_value g')).
  { intros ac x Hx. unfold processProposal in Hx. destruct (fc_body (ac_content ac)); try discriminate.
    destruct (generateProposalRef _ _); try discriminate. injection Hx as <- _. exact Same. }
  assert (HN : forall r, noData r = (g', Err e) -> exists x, r = (g', Err x)).
  { intros [g0 [?|?|?|]] Hr; unfold noData in Hr; cbn in Hr; try discriminate. injection Hr as <- <-. eauto. }
  unfold unmarshalAndProcessMessage in H. destruct (unmarshal getMlsMessage raw) as [[m|m|w|gi|k]|?|?|]; try discriminate; try (injection H as <- _; exact Same).
  - apply HN in H. destruct H as [x H]. unfold processPublicMessage in H.
    destruct (verifyPublicMessage g m) as [ac|?|?|]; try discriminate; [|injection H as <- _; exact Same].
    destruct (fc_body (ac_content ac)); [injection H as <- _; exact Same|eapply HP; eauto|eapply processCommit_error; eauto].
  - unfold processPrivateMessage in H.
    destruct (openPrivateMessage g m) as [ac|?|?|]; try discriminate; [|injection H as <- _; exact Same].
    destruct (fc_body (ac_content ac)); [discriminate| |]; apply HN in H; destruct H as [x H]; [eapply HP; eauto|eapply processCommit_error; eauto].
Qed.

Lemma createWelcome_frame g kps rs ri rh rg g' r : proper (gr_heap g) (gr_tree g) ->
  createWelcome g kps rs ri rh rg = (g', r) ->
  exists h, g' = withHeap g h /\ same_but_unmerged (gr_value g) (gr_value g').
Proof.
  intros [HP _] H. unfold createWelcome in H.
  assert (Same : exists h, g = withHeap g h /\ same_but_unmerged (gr_value g) (gr_value g)).
  { exists (gr_heap g). split; [now destruct g|apply same_but_unmerged_refl]. }
  destruct kps as [|k0 kps0]; [injection H as <- _; exact Same|].
  destruct (applyH _ _ _ _) as [[h t]|?|?|] eqn:Ea; try (injection H as <- _; exact Same).
  assert (E : g' = withHeap g h) by congruence. subst g'.
  exists h. split; [reflexivity|]. unfold gr_value, withHeap. cbn. apply extends_value; [exact HP|]. eapply applyH_extends; eauto.
Qed.
End WithCrypto.
