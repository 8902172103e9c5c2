(** Proofs about the leaf of the member itself (C123). *)
From Verif Require Export SpecOusted OwnLeafFacts RemovedFacts.
From Verif Require Import GroupFacts EndFacts.

Section WithCrypto.
Context {C : crypto}.
Theorem own_leaf_after g raw now ac c g' li : obtained g -> accepts_commit g raw now ac c g' -> fc_sender (ac_content ac) = SMember li ->
  gr_myLeafIndex g' = gr_myLeafIndex g /\
  exists l', leaf_at (gr_value g') (gr_myLeafIndex g) = Some l' /\
    (still_its_leaf g ac c l' \/ (removes g li c (gr_myLeafIndex g) /\ adds g li c l')).
Proof.
  intros O A Hs. pose proof (accepts_still_member _ _ _ _ _ _ O A) as M.
  assert (E : gr_myLeafIndex g' = gr_myLeafIndex g) 
  by (destruct (history [(raw, now)] g (0 + 1) (sane_epoch _ (obtained_sane _ O))) as (_ & _ & _ & H4 & _); [econstructor; [exact A|constructor]|];
      pose proof A as (_ & _ & E); cbn in H4; rewrite E in H4; exact H4). rewrite E in M. split; [exact E|].
  destruct (leaf_at (gr_value g') (gr_myLeafIndex g)) as [l'|] eqn:El; [|now destruct M]. exists l'. split; [reflexivity|].
  pose proof (ms_in _ (obtained_state g O)) as I. destruct (leaf_at (gr_value g) (gr_myLeafIndex g)) as [l|] eqn:E0; [|now destruct I].
  unfold still_its_leaf. rewrite E0.
  destruct (leaves_kept _ _ _ _ _ _ _ _ _ O A Hs E0) as [K|[K|(l2 & K1 & K2)]].
  - left. left. congruence.
  - destruct (leaves_come_from _ _ _ _ _ _ _ _ _ O A Hs El) as [F|[F|F]]; [left; left; congruence|right; now split|left; now right].
  - left. right. assert (l2 = l') by congruence. now subst l2.
Qed.
Theorem own_leaf_kept g raw now ac c g' li : obtained g -> accepts_commit g raw now ac c g' -> fc_sender (ac_content ac) = SMember li ->
  ~ removes g li c (gr_myLeafIndex g) -> exists l', leaf_at (gr_value g') (gr_myLeafIndex g') = Some l' /\ still_its_leaf g ac c l'.
Proof.
  intros O A Hs N. destruct (own_leaf_after _ _ _ _ _ _ _ O A Hs) as (E & l' & H & [K|[K _]]); [|contradiction]. exists l'. rewrite E. now split.
Qed.
End WithCrypto.
