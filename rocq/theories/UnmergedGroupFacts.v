(** The unmerged leaves in the trees of members (C18). *)
From Verif Require Export SpecFollow SplitFacts TreeStepFacts.

Lemma leaves_only_strong k t : shaped k t -> leaves_only t -> strong_rule t.
Proof.
  intros Sh L. right. exists k.
  assert (N : forall q pn, at_path k t q <> Some (NParent pn)).
  { intros q pn H. unfold at_path in H. destruct (nth_error t _) as [o|] eqn:E; [|discriminate]. subst o. exact (L _ _ E). }
  splits; auto.
  - intros q pn u _ Hq. now destruct (N q pn).
  - intros q pn _ Hq. now destruct (N q pn).
  - intros q pn u j _ Hq. now destruct (N q pn).
Qed.

Section WithCrypto.
Context {C : crypto}.

Lemma commit_rule g raw now ac c g' : obtained g -> accepts_commit g raw now ac c g' -> strong_rule (gr_value g) -> strong_rule (gr_value g').
Proof.
  intros O A R. pose proof (proj1 (sane_consistent _ (obtained_sane _ O))) as P. apply accepts_commit_inv in A as [_ A].
  apply processCommit_ok in A as (c' & ps & ss & h & t & _ & _ & Ha & A).
  apply finishCommit_ok in A as (priv & nh & h1 & t1 & th & cs & priv1 & ctx & interim & psk & ep & ini & _ & _ & Hpath & _ & ->).
  change (strong_rule (deref h1 t1)).
  assert (St : tree_steps (gr_heap g, gr_tree g) (h1, t1)).
  { econstructor; [eapply step_apply; exact Ha|]. destruct (c_path c') as [up|]; [|destruct Hpath as (-> & -> & _); constructor].
    apply processPath_all in Hpath as (Hm & _). econstructor; [eapply step_merge; exact Hm|constructor]. }
  exact (proj2 (history_unmerged _ _ St P R)).
Qed.

Theorem members_keep_the_rule g l ds g' : obtained g -> receives g l ds g' -> strong_rule (gr_value g) -> strong_rule (gr_value g').
Proof.
  intros O R. induction R as [g|g raw now d g1 l ds g' E R IH]; intros Hr; [assumption|].
  apply IH; [eapply obtained_message; [exact O|exact E]|]. pose proof (acted_on g raw now) as Ga. rewrite E in Ga. destruct Ga as (ac & Hc & _ & _ & Hx); [auto|].
  destruct (fc_body (ac_content ac)) as [x|x|c] eqn:Eb.
  - destruct Hx as (-> & _). exact Hr.
  - unfold noData, processProposal in Hx. rewrite Eb in Hx. destruct (generateProposalRef _ ac); cbn in Hx; try discriminate. apply pair_equal_spec in Hx as [-> _]. exact Hr.
  - unfold noData in Hx. destruct (processCommit g ac [] [] now) as [g2 r1] eqn:E1. cbn [fst snd] in Hx.
    apply pair_equal_spec in Hx as [<- Ed]. destruct r1 as [[]|?|?|]; try discriminate. cbn in Ed. apply Ok_inj in Ed. subst d.
    apply (commit_rule g raw now ac c g1 O); [splits; auto|exact Hr].
Qed.
Theorem founders_have_the_rule groupID kpp rnd g : createGroup groupID kpp rnd = Ok g -> strong_rule (gr_value g).
Proof.
  unfold createGroup. intros H. apply rbind_ok in H as ([h t] & Ha & H).
  assert (P : proper [] [None]) by (split; [intros p [X|[]]; discriminate|intros [|[|i]] j p X; discriminate X]).
  assert (R : strong_rule (deref [] [None])).
  { assert (N : forall q, at_path 0 [@None node] q = None) by (intros q; unfold at_path; destruct (N.to_nat (number 0 q)) as [|[|n]]; reflexivity).
    right. exists 0%nat. cbn [deref map]. splits.
    - exact shaped_grown_nil.
    - intros q pn u _ Hq. rewrite N in Hq. discriminate.
    - intros q pn _ Hq. rewrite N in Hq. discriminate.
    - intros q pn u j _ Hq. rewrite N in Hq. discriminate. }
  assert (St : tree_steps ([], [None]) (h, t)) by (econstructor; [eapply step_add; exact Ha|constructor]).
  pose proof (proj2 (history_unmerged _ _ St P R)) as Q.
  repeat (apply rbind_ok in H as (? & _ & H)). apply Ok_inj in H. subst g. exact Q.
Qed.
End WithCrypto.
