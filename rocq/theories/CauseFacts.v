(** What a rejected message can change, and only if it adds members (C44). *)
From Verif Require Export OutcomeFacts RemovedFacts.

(** [h] with more nodes *)
Definition longer (h h' : heap) : Prop := exists more, h' = h ++ more.
Lemma longer_refl h : longer h h.
Proof. exists []. now rewrite app_nil_r. Qed.
Lemma longer_trans a b c : longer a b -> longer b c -> longer a c.
Proof. intros [x ->] [y ->]. exists (x ++ y). now rewrite app_assoc. Qed.
Lemma longer_value h h' t : proper h t -> longer h h' -> deref h' t = deref h t.
Proof.
  intros [HP _] [more ->]. unfold deref. apply map_ext_in. intros [p|] Hp; [|reflexivity]. apply nth_error_app1. now apply HP.
Qed.
Lemma longer_foldM {X} (f : heap * ptree -> X -> res (heap * ptree)) l :
  (forall s x s', In x l -> f s x = Ok s' -> longer (fst s) (fst s')) -> forall s s', foldM f s l = Ok s' -> longer (fst s) (fst s').
Proof.
  induction l as [|x l IH]; intros Hf h h' H; cbn in H.
  - apply Ok_inj in H. subst. apply longer_refl.
  - apply rbind_ok in H. destruct H as (h1 & H1 & H2). eapply longer_trans; [eapply Hf; cbn; eauto|]. eapply IH; eauto. intros; eapply Hf; cbn; eauto.
Qed.
Lemma applyH_longer h t props senders h' t' : (forall k, ~ In (PAdd k) props) -> applyH h t props senders = Ok (h', t') -> longer h h'.
Proof.
  intros Na. rewrite applyH_eq. intros H. apply rbind_ok in H. destruct H as ([h1 t1] & H1 & H). apply rbind_ok in H. destruct H as (t2 & _ & H).
  apply longer_foldM in H1; [|intros [h0 t0] [i p] [h2 t3] _ E].
  - apply longer_foldM in H; [eapply longer_trans; [exact H1|exact H]|].
    intros [h0 t0] p [h2 t3] Hp E. unfold addStepH in E. cbn [fst snd] in *. destruct p; try (apply Ok_inj in E; apply pair_equal_spec in E; destruct E as [<- _]; apply longer_refl).
    now destruct (Na _ Hp).
  - unfold updStepH in E. cbn [fst snd] in *. destruct p; try (apply Ok_inj in E; apply pair_equal_spec in E; destruct E as [<- _]; apply longer_refl).
    apply rbind_ok in E. destruct E as (s & _ & E). unfold updateH, alloc in E. apply rbind_ok in E. destruct E as (t4 & _ & E).
    apply Ok_inj in E. apply pair_equal_spec in E. destruct E as [<- _]. now exists [NLeaf l].
Qed.

Section WithCrypto.
Context {C : crypto}.

Lemma same_state_refl g : same_state g g.
Proof. unfold same_state, agree. splits; auto. Qed.

Theorem only_additions_change g raw now g' e : obtained g -> unmarshalAndProcessMessage g raw now = (g', Err e) ->
  same_state g g' \/
  exists ac c li ps k s, carries g raw ac /\ authentic g ac /\ fc_body (ac_content ac) = BCommit c /\ fc_sender (ac_content ac) = SMember li /\ commits g li c ps /\ In (PAdd k, s) ps.
Proof.
  intros O H. pose proof H as H0. apply acted_on_or in H. destruct H as [[-> _]|(ac & Hc & Ha & _ & Hx)]; [left; apply same_state_refl|].
  destruct (fc_body (ac_content ac)) as [d|p|c] eqn:Eb.
  - destruct Hx as (_ & Hx & _). discriminate.
  - left. unfold noData, processProposal in Hx. rewrite Eb in Hx. destruct (generateProposalRef _ ac); try discriminate.
    cbn in Hx. apply pair_equal_spec in Hx as [-> _]. apply same_state_refl.
  - pose proof Ha as (_ & _ & li & _ & Hs & _). unfold noData, processCommit in Hx. rewrite Eb, Hs in Hx. cbn [sender_leafIndex] in Hx.
    destruct (checkCommit g li c) as [[props senders]|?|?|] eqn:Ek; cbn in Hx; try discriminate; try (left; apply pair_equal_spec in Hx as [-> _]; apply same_state_refl).
    destruct (checkCommit_pairs _ _ _ _ _ Ek) as (ps & Hcm & Ep & Es & _).
    destruct (applyH (gr_heap g) (gr_tree g) props senders) as [[h t]|?|?|] eqn:Ea; cbn in Hx; try discriminate; try (left; apply pair_equal_spec in Hx as [-> _]; apply same_state_refl).
    destruct (finishCommit g ac c h t [] [] now) as [g2|?|?|]; cbn in Hx; try discriminate. apply pair_equal_spec in Hx as [-> _].
    assert (D : (exists k s, In (PAdd k, s) ps) \/ forall k, ~ In (PAdd k) props).
    { rewrite Ep. clear. induction ps as [|[p s] ps IH]; [right; intros k []|]. destruct IH as [(k & s' & IH)|IH]; [left; exists k, s'; cbn; auto|].
      destruct p; try (right; intros k [X|X]; [discriminate|exact (IH k X)]). left. eexists _, s. cbn. left. reflexivity. }
    destruct D as [(k & s & Hin)|Na]; [right; exists ac, c, li, ps, k, s; splits; auto|]. left.
    pose proof (longer_value _ _ _ (proj1 (sane_consistent _ (obtained_sane _ O))) (applyH_longer _ _ _ _ _ _ Na Ea)) as V.
    unfold same_state, agree, gr_value, withHeap. cbn. splits; auto.
Qed.
End WithCrypto.
