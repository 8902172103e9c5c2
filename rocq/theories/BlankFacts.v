(** Commits that remove nobody. *)
From Verif Require Import TreeOpFacts MessageBoundFacts CommitTreeFacts Witness.
From Verif Require Export SpecGroup SpecObtained SpecCommitTree.

Lemma updated_all_len t us t' : one_by_one updated t us t' -> lenN t' = lenN t.
Proof.
  induction 1 as [|t u t1 us t' (k & Sh & R) _ IH]; [reflexivity|]. rewrite IH. destruct R as ((_ & E1) & _). destruct Sh as [[_ E2] _]. now rewrite E1, E2.
Qed.
Lemma removed_in t rs t' : one_by_one removed t rs t' -> forall r, In r rs -> 2 * r < lenN t.
Proof.
  induction 1 as [|t r t1 rs t' (k & t0 & Sh & R & T) _ IH]; intros x Hx; [destruct Hx|].
  pose proof (shaped_full _ _ Sh) as F. destruct Hx as [<-|Hx].
  - apply (leaf_in_array k _ r F). apply R.
  - apply IH in Hx. pose proof (truncated_len k t0 t1 (proj1 R) T). destruct R as ((_ & E1) & _). destruct F as [_ E2]. lia.
Qed.

Section WithCrypto.
Context {C : crypto}.
Theorem removals_in_tree g raw now ac c g' li ps r s : obtained g -> accepts_commit g raw now ac c g' ->
  fc_sender (ac_content ac) = SMember li -> commits g li c ps -> In (PRemove r, s) ps -> 2 * designated r < lenN (gr_value g).
Proof.
  intros O A Hs Hc Hin. destruct (tree_after_commit _ _ _ _ _ _ _ _ O A Hs Hc) as (t & (t1 & t2 & U & R & _) & _).
  rewrite <- (updated_all_len _ _ _ U). apply (removed_in _ _ _ R). unfold removalsOf. apply in_flat_map. exists (PRemove r, s). split; [exact Hin|now left].
Qed.
End WithCrypto.
