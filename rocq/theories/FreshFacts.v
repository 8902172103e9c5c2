(** Proofs about new encryption keys (C120). *)
From Verif Require Export SpecFresh OwnLeafFacts KeyFacts.
From Coq Require Import Lia.

Lemma updates_changed ps i m : In (i, m) (updatesOf ps) -> exists s, In s (changedLeaves ps) /\ designated s = i.
Proof.
  unfold updatesOf, changedLeaves. intros H. apply in_flat_map in H as ([p s] & Hin & Hp). cbn [fst snd] in Hp.
  destruct p; try destruct Hp as [E|[]]; try contradiction. apply pair_equal_spec in E as [<- _]. exists s. split; [|reflexivity].
  apply in_flat_map. eexists. split; [exact Hin|now left].
Qed.
Lemma removals_changed ps i : In i (removalsOf ps) -> exists s, In s (changedLeaves ps) /\ designated s = i.
Proof.
  unfold removalsOf, changedLeaves. intros H. apply in_flat_map in H as ([p s] & Hin & Hp). cbn [fst snd] in Hp.
  destruct p; try destruct Hp as [E|[]]; try contradiction. subst i. exists removed. split; [|reflexivity].
  apply in_flat_map. eexists. split; [exact Hin|now left].
Qed.

Section WithCrypto.
Context {C : crypto}.
Theorem fresh_leaf_keys g raw now ac c g' li ps up l : obtained g -> accepts_commit g raw now ac c g' -> fc_sender (ac_content ac) = SMember li ->
  commits g li c ps -> indices_below li ps -> c_path c = Some up -> leaf_at (gr_value g) li = Some l ->
  leaf_at (gr_value g') li = Some (up_leafNode up) /\
  ~ In (ln_encryptionKey l) (pathKeys up) /\ forall j l', j <> li -> leaf_at (gr_value g') j = Some l' -> ~ In (ln_encryptionKey l') (pathKeys up).
Proof.
  intros O A Hs Hc B Ep Hl. pose proof (obtained_sane _ O) as Sa. assert (Bl : li < 2 ^ 31) by (apply B; now left).
  assert (D : forall s, s < 2 ^ 31 -> designated s = s) by (intros s X; unfold designated; now apply N.mod_small).
  destruct (commit_targets _ _ _ _ _ _ _ _ A Hs Hc B) as [_ Nt].
  destruct (commit_tree _ _ _ _ _ _ _ _ Sa A Hs Hc) as (v & W & V & P). rewrite Ep in P.
  destruct P as (k & sn & S1 & S2 & M & _ & _ & _ & K). destruct (merged_leaf _ _ _ _ _ _ S1 S2 M) as [M1 M2]. rewrite (D _ Bl) in M1, M2.
  split; [exact M1|]. assert (T : forall s, In s (changedLeaves ps) -> designated s <> li).
  { intros s Hin E. rewrite D in E by (apply B; now right). subst s. apply Nt. apply in_map_iff. eauto. }
  split.
  - intros I. destruct (vapply_keeps _ _ _ li l (sane_shape _ Sa) V Hl) as [X|[X|(m & X & _)]].
    + exact (K _ _ _ I X eq_refl).
    + apply removals_changed in X as (s & X & E). exact (T _ X E).
    + apply updates_changed in X as (s & X & E). exact (T _ X E).
  - intros j l' Hn Hl' I. rewrite M2 in Hl' by exact Hn. exact (K _ _ _ I Hl' eq_refl).
Qed.
End WithCrypto.
