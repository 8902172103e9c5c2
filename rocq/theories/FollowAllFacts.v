(** Members follow whole histories (C80). *)
From Verif Require Export SpecFollow FollowFacts SplitFacts.

Section WithCrypto.
Context {C : crypto}.

Lemma apply_keeps_leaf t ps ss t' li l : well_shaped t -> li < 2 ^ 31 -> proposalListNeedsPath ps = false -> vapply t ps ss = Ok t' -> leaf_at t li = Some l -> leaf_at t' li = Some l.
Proof.
  intros W Hli Hn H Hl. assert (Np : forall p, In p ps -> (forall l, p <> PUpdate l) /\ (forall r, p <> PRemove r)).
  { intros p Hp. assert (~ requires_path p) by (intros Hr; assert (proposalListNeedsPath ps = true) by (apply needsPath_spec; eauto); congruence).
    split; intros x ->; apply H0; cbn; auto. }
  rewrite vapply_eq in H. apply rbind_ok in H. destruct H as (t1 & E1 & H). apply rbind_ok in H. destruct H as (t2 & E2 & H).
  assert (t1 = t).
  { revert E1. apply (foldM_inv _ (fun x => x = t)); [|reflexivity]. intros s [i p] s' Hin -> E. apply in_combine_r in Hin. destruct (Np p Hin) as [N1 _]. unfold updStep in E. cbn [fst snd] in E.
    destruct p; try (now apply Ok_inj in E). now destruct (N1 l0). }
  subst t1. assert (t2 = t).
  { revert E2. apply (foldM_inv _ (fun x => x = t)); [|reflexivity]. intros s p s' Hin -> E. destruct (Np p Hin) as [_ N2]. unfold remStep in E.
    destruct p; try (now apply Ok_inj in E). now destruct (N2 removed). }
  subst t2. assert (G : well_shaped t' /\ leaf_at t' li = Some l); [|apply G].
  revert H. apply (foldM_inv _ (fun x => well_shaped x /\ leaf_at x li = Some l)); [|auto]. intros s p s' _ [Ws Hs] E. unfold addStep in E.
  destruct p; try (apply Ok_inj in E; subst; auto). destruct (add_members _ _ _ Ws E) as (W' & j & Hf & H1 & H2). split; [assumption|].
  destruct (N.eq_dec li j) as [->|Hne]; [|now rewrite H2]. destruct Hf as [Hf _]. congruence.
Qed.

Lemma pathless_keeps g raw now ac c g' me l : obtained g -> accepts_commit g raw now ac c g' -> c_path c = None -> me < 2 ^ 31 ->
  leaf_at (gr_value g) me = Some l -> leaf_at (gr_value g') me = Some l.
Proof.
  intros O A Hp Hme Hl. pose proof (obtained_sane g O) as Sa. pose proof A as (_ & Hb & _). apply accepts_commit_inv in A as [_ A].
  apply processCommit_ok in A as (c' & ps & ss & h & t & Hb' & Hck & Ha & A). assert (c' = c) by congruence. subst c'.
  destruct (checkCommit_pairs _ _ _ _ _ Hck) as (pp & _ & _ & _ & Hn). specialize (Hn Hp).
  apply finishCommit_ok in A as (priv & nh & h1 & t1 & th & cs & priv1 & ctx & interim & psk & ep & ini & Hcp & Hnh & Hpath & _ & ->).
  rewrite Hp in Hpath. destruct Hpath as (-> & -> & _). unfold gr_value at 1. cbn [gr_heap gr_tree].
  destruct (applyH_value_ok _ _ _ _ _ _ (proj1 (sane_consistent _ Sa)) Ha) as [V _]. fold (gr_value g) in V.
  eapply apply_keeps_leaf; eauto. apply (sane_shape _ Sa).
Qed.

(** One message *)
Lemma follow_one g m members raw now d g1 : crypto_ok C -> obtained g -> obtained m -> agree g m -> gr_pending m = gr_pending g ->
  holds_its_keys g -> holds_its_keys m -> In (gr_myLeafIndex g) members -> In (gr_myLeafIndex m) members ->
  unmarshalAndProcessMessage g raw now = (g1, Ok d) ->
  (forall ac c li ps, accepts_commit g raw now ac c g1 -> fc_sender (ac_content ac) = SMember li -> commits g li c ps -> can_be_followed g g1 members li c ps) ->
  exists m1, unmarshalAndProcessMessage m raw now = (m1, Ok d) /\ agree g1 m1 /\ gr_pending m1 = gr_pending g1 /\
    holds_its_keys g1 /\ holds_its_keys m1 /\ gr_myLeafIndex g1 = gr_myLeafIndex g /\ gr_myLeafIndex m1 = gr_myLeafIndex m.
Proof.
  intros OK O Om Ag Hp Kg Km Ig Im E F. pose proof Ag as (S1 & S2 & S3 & S4 & S5 & S6).
  assert (Se : same_epoch m g) by (unfold same_epoch; splits; congruence).
  pose proof (acted_on g raw now) as Ga. rewrite E in Ga. destruct Ga as (ac & Hc & Hau & _ & Hx); [auto|].
  assert (Com : forall c, fc_body (ac_content ac) = BCommit c -> exists m1, unmarshalAndProcessMessage m raw now = (m1, Ok d) /\ agree g1 m1 /\ gr_pending m1 = gr_pending g1 /\
    holds_its_keys g1 /\ holds_its_keys m1 /\ gr_myLeafIndex g1 = gr_myLeafIndex g /\ gr_myLeafIndex m1 = gr_myLeafIndex m).
  { intros c Eb. rewrite Eb in Hx. unfold noData in Hx. destruct (processCommit g ac [] [] now) as [g2 r1] eqn:E1. cbn [fst snd] in Hx.
    apply pair_equal_spec in Hx as [<- Ed]. destruct r1 as [[]|?|?|]; try discriminate. cbn in Ed. apply Ok_inj in Ed. subst d.
    assert (A : accepts_commit g raw now ac c g1) by (splits; auto).
    destruct Hau as (_ & _ & li & _ & Hs & _).
    pose proof (processCommit_ok _ _ _ _ _ _ E1) as (c' & pr & se & h & t & Hb' & Hck & _). assert (c' = c) by congruence. subst c'.
    rewrite Hs in Hck. cbn [sender_leafIndex] in Hck. destruct (checkCommit_pairs _ _ _ _ _ Hck) as (ps & Hcm & _).
    specialize (F ac c li ps A Hs Hcm). unfold can_be_followed in F.
    assert (P : match c_path c with None => True | Some up => exists k t new, prescribed_path g g1 ps li up k t new /\ follows_path g li k t new /\ follows_path m li k t new end).
    { destruct (c_path c) as [up|]; [|exact I]. destruct F as (k & t0 & new & Pp & Fm). exists k, t0, new.
      destruct (Fm _ Ig) as (A1 & A2 & A3). destruct (Fm _ Im) as (B1 & B2 & B3). rewrite <- S2 in B2. unfold follows_path. cbv zeta. splits; auto. }
    assert (Pg : match c_path c with None => True | Some up => exists k t new, prescribed_path g g1 ps li up k t new /\ follows_path g li k t new /\ follows_path g li k t new end).
    { destruct (c_path c) as [up|]; [|exact I]. destruct P as (k & t0 & new & P1 & P2 & P3). exists k, t0, new. auto. }
    destruct (members_follow_keys g m raw now ac c g1 li ps OK O Om Ag Hp A Hs Hcm P) as (m1 & Em & Am & Pm & Lm & Hm).
    assert (Agg : agree g g) by (unfold agree; auto 10).
    destruct (members_follow_keys g g raw now ac c g1 li ps OK O O Agg eq_refl A Hs Hcm Pg) as (g2 & Eg & _ & _ & Lg & Hg).
    rewrite E in Eg. apply pair_equal_spec in Eg as [<- _]. exists m1. splits; auto.
    - destruct (c_path c) as [up|] eqn:Ep; [apply Hg; discriminate|]. apply (message_holds g raw now g1 _ OK O Kg E).
      unfold same_leaf_key. rewrite Lg. pose proof (obtained_state _ O) as Mg. destruct (leaf_at (gr_value g) (gr_myLeafIndex g)) as [l|] eqn:El; [|now destruct (ms_in _ Mg)].
      now rewrite (pathless_keeps _ _ _ _ _ _ _ l O A Ep (ms_index _ Mg) El).
    - destruct (c_path c) as [up|] eqn:Ep; [apply Hm; discriminate|]. apply (message_holds m raw now m1 _ OK Om Km Em).
      assert (Amc : accepts_commit m raw now ac c m1). { splits; auto. eapply carries_same; [|exact Hc]. unfold same_epoch. splits; congruence. }
      unfold same_leaf_key. rewrite Lm. pose proof (obtained_state _ Om) as Mm. destruct (leaf_at (gr_value m) (gr_myLeafIndex m)) as [l|] eqn:El; [|now destruct (ms_in _ Mm)].
      now rewrite (pathless_keeps _ _ _ _ _ _ _ l Om Amc Ep (ms_index _ Mm) El). }
  destruct (fc_body (ac_content ac)) as [x|x|c] eqn:Eb; [| |exact (Com c eq_refl)]; clear Com F.
  - destruct Hx as (-> & Ed & mm & Er). apply Ok_inj in Ed. subst d. exists m. splits; auto.
    unfold unmarshalAndProcessMessage in *. rewrite Er in *. unfold processPrivateMessage in *. rewrite (openPrivate_same m g mm Se) in E.
    destruct (openPrivateMessage m mm) as [ac'|e|e|] eqn:Ev; try discriminate.
    rewrite <- (openPrivate_same m g mm Se) in Ev. destruct (openPrivateMessage_ok _ _ _ _ Er Ev) as (Hac & _).
    assert (ac' = ac) by (eapply carries_fun; eauto). subst ac'. rewrite Eb in *. reflexivity.
  - unfold noData, processProposal in Hx. rewrite Eb in Hx. destruct (generateProposalRef (gc_cipherSuite (gr_context g)) ac) as [ref|e|e|] eqn:Eref; cbn in Hx; try discriminate.
    apply pair_equal_spec in Hx as [-> Ed]. apply Ok_inj in Ed. subst d.
    exists (withPending m (gr_pending m ++ [mkPendingProposal ref x (sender_leafIndex (fc_sender (ac_content ac)))])). splits; auto.
    + unfold unmarshalAndProcessMessage in *. destruct (unmarshal getMlsMessage raw) as [mm|e|e|] eqn:Er; try discriminate. destruct mm as [pm|pm|w|gi|kk]; try discriminate.
      * unfold processPublicMessage in *. rewrite (verifyPublic_same m g pm Se) in E. destruct (verifyPublicMessage m pm) as [ac'|e|e|] eqn:Ev; try discriminate.
        destruct (verifyPublicMessage_ok _ _ _ Ev) as (Hac & _). assert (ac' = ac). { eapply carries_fun; [|exact Hc]. rewrite Hac. now apply carries_public. }
        clear Hac. subst ac'. rewrite Eb. unfold noData, processProposal. rewrite Eb, S1, Eref. reflexivity.
      * unfold processPrivateMessage in *. rewrite (openPrivate_same m g pm Se) in E. destruct (openPrivateMessage m pm) as [ac'|e|e|] eqn:Ev; try discriminate.
        rewrite <- (openPrivate_same m g pm Se) in Ev. destruct (openPrivateMessage_ok _ _ _ _ Er Ev) as (Hac & _).
        assert (ac' = ac) by (eapply carries_fun; eauto). subst ac'. rewrite Eb. unfold noData, processProposal. rewrite Eb, S1, Eref. reflexivity.
    + cbn. now rewrite Hp.
Qed.

Theorem follow_all g members l ds g' : crypto_ok C -> receives g l ds g' -> leads members g l -> obtained g -> holds_its_keys g -> In (gr_myLeafIndex g) members ->
  holds_its_keys g' /\
  forall m, obtained m -> agree g m -> gr_pending m = gr_pending g -> holds_its_keys m -> In (gr_myLeafIndex m) members ->
    exists m', receives m l ds m' /\ agree g' m' /\ gr_pending m' = gr_pending g' /\ holds_its_keys m'.
Proof.
  intros OK R. induction R as [g|g raw now d g1 l ds g' E R IH]; intros L O Kg Ig.
  - split; [exact Kg|]. intros m Om Ag Hp Km Im. exists m. splits; auto. constructor.
  - inversion L as [|g0 raw0 now0 d0 g10 l0 E0 F L1]; subst. rewrite E in E0. apply pair_equal_spec in E0 as [<- _].
    assert (O1 : obtained g1) by (eapply obtained_message; [exact O|eassumption]).
    assert (Agg : agree g g) by (unfold agree; auto 10).
    destruct (follow_one g g members raw now d g1 OK O O Agg eq_refl Kg Kg Ig Ig E F) as (_ & _ & _ & _ & K1 & _ & Lg & _).
    destruct (IH L1 O1 K1) as [Kg' IHm]; [now rewrite Lg|]. split; [exact Kg'|].
    intros m Om Ag Hp Km Im.
    destruct (follow_one g m members raw now d g1 OK O Om Ag Hp Kg Km Ig Im E F) as (m1 & Em & Am & Pm & _ & Km1 & _ & Lm).
    assert (Om1 : obtained m1) by (eapply obtained_message; [exact Om|eassumption]).
    destruct (IHm m1 Om1 Am Pm Km1) as (m' & R' & A' & P' & K'); [now rewrite Lm|]. exists m'. splits; auto. econstructor; eauto.
Qed.
End WithCrypto.
