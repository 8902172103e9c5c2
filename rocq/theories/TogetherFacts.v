(** Proofs about proposals committed together or one after the other (C118). *)
From Verif Require Export SpecTogether OrderFacts ExactFacts.
From Verif Require Import TreeOpFacts TreeFacts AgreementFacts ObtainedFacts.
From Coq Require Import Lia Permutation.

Lemma one_by_one_app {A} (step : ratchetTree -> A -> ratchetTree -> Prop) l m t t' :
  one_by_one step t (l ++ m) t' <-> exists t1, one_by_one step t l t1 /\ one_by_one step t1 m t'.
Proof.
  revert t. induction l as [|x l IH]; intros t; cbn [app]; split.
  - intros H. exists t. split; [constructor|exact H].
  - intros (t1 & H1 & H2). inversion H1; subst. exact H2.
  - intros H. inversion H as [|? ? t1 ? ? Hs Ho]; subst. apply IH in Ho as (t2 & H1 & H2). exists t2. split; [econstructor; eauto|exact H2].
  - intros (t2 & H1 & H2). inversion H1 as [|? ? t1 ? ? Hs Ho]; subst. econstructor; [exact Hs|]. apply IH. eauto.
Qed.
Lemma one_by_one_nil {A} (step : ratchetTree -> A -> ratchetTree -> Prop) t t' : one_by_one step t [] t' <-> t' = t.
Proof. split; [intros H; now inversion H|intros ->; constructor]. Qed.

Theorem together_or_apart t ps qs b : in_turn ps qs ->
  after_proposals t (ps ++ qs) b <-> exists a, after_proposals t ps a /\ after_proposals a qs b.
Proof.
  intros (HR & HA). unfold after_proposals. unfold updatesOf at 1, removalsOf at 1, additionsOf at 1. rewrite !flat_map_app.
  fold (updatesOf ps) (updatesOf qs) (removalsOf ps) (removalsOf qs) (additionsOf ps) (additionsOf qs).
  revert HR HA. generalize (updatesOf ps), (updatesOf qs), (removalsOf ps), (removalsOf qs), (additionsOf ps), (additionsOf qs).
  intros u u' r r' d d' HR HA.
  split.
  - intros (t1 & t2 & H1 & H2 & H3). apply one_by_one_app in H1 as (x1 & H1 & H1'). apply one_by_one_app in H2 as (x2 & H2 & H2'). apply one_by_one_app in H3 as (x3 & H3 & H3').
    destruct HA as [->|[-> ->]].
    + apply one_by_one_nil in H3 as ->. destruct HR as [->| ->].
      * apply one_by_one_nil in H2 as ->. exists x1. split; [exists x1, x1|exists t1, t2]; splits; auto; now apply one_by_one_nil.
      * apply one_by_one_nil in H1' as ->. exists x2. split; [exists x1, x2|exists x2, t2]; splits; auto; now apply one_by_one_nil.
    + apply one_by_one_nil in H1' as ->. apply one_by_one_nil in H2' as ->. exists x3. split; [exists x1, x2|exists x3, x3]; splits; auto; now apply one_by_one_nil.
  - intros (a & (x1 & x2 & H1 & H2 & H3) & (y1 & y2 & H1' & H2' & H3')).
    destruct HA as [->|[-> ->]].
    + apply one_by_one_nil in H3 as ->. destruct HR as [->| ->].
      * apply one_by_one_nil in H2 as ->. exists y1, y2. splits; auto. apply one_by_one_app. eauto.
      * apply one_by_one_nil in H1' as ->. exists x1, y2. rewrite app_nil_r. splits; auto. apply one_by_one_app. eauto.
    + apply one_by_one_nil in H1' as ->. apply one_by_one_nil in H2' as ->. exists x1, x2. rewrite !app_nil_r. splits; auto. apply one_by_one_app. eauto.
Qed.

(** The same of the code *)
Lemma applyH_after h t ps v : proper h t -> well_shaped (deref h t) ->
  (exists h' t', applyH h t (map fst ps) (map snd ps) = Ok (h', t') /\ deref h' t' = v) <-> after_proposals (deref h t) ps v.
Proof.
  intros P W. split.
  - intros (h' & t' & E & <-). apply (applyH_value_ok _ _ _ _ _ _ P) in E as [V _]. now apply vapply_one_by_one.
  - intros H. apply (vapply_complete _ _ _ W) in H. destruct (applyH_of_value _ _ _ _ _ P H) as (h' & t' & E & V & _). eauto.
Qed.
Theorem applied_together h t ps qs v : proper h t -> well_shaped (deref h t) -> in_turn ps qs ->
  (exists h' t', applyH h t (map fst (ps ++ qs)) (map snd (ps ++ qs)) = Ok (h', t') /\ deref h' t' = v) <->
  (exists h1 t1 h2 t2, applyH h t (map fst ps) (map snd ps) = Ok (h1, t1) /\ applyH h1 t1 (map fst qs) (map snd qs) = Ok (h2, t2) /\ deref h2 t2 = v).
Proof.
  intros P W I. rewrite applyH_after, together_or_apart by assumption. split.
  - intros (a & H1 & H2). apply applyH_after in H1 as (h1 & t1 & E1 & <-); auto.
    pose proof (applyH_value_ok _ _ _ _ _ _ P E1) as [V P1]. pose proof (vapply_shape _ _ _ _ W V) as W1.
    apply applyH_after in H2 as (h2 & t2 & E2 & <-); auto. exists h1, t1, h2, t2. auto.
  - intros (h1 & t1 & h2 & t2 & E1 & E2 & E3). pose proof (applyH_value_ok _ _ _ _ _ _ P E1) as [V P1]. pose proof (vapply_shape _ _ _ _ W V) as W1.
    exists (deref h1 t1). split; apply applyH_after; eauto.
Qed.

(** Someone who is added and removed again *)
Lemma leaf_of_node t j : leaf_at t j = match node_at t (2 * j) with Some (NLeaf l) => Some l | _ => None end.
Proof. unfold leaf_at, node_at. destruct (nth_error t (N.to_nat (2 * j))) as [[[l|p]|]|]; reflexivity. Qed.
Lemma removed_leaves t li t' : removed t li t' -> leaf_at t' li = None /\ forall j, j <> li -> leaf_at t' j = leaf_at t j.
Proof.
  intros H. apply removed_sweeps in H as (L & A & B & K & _).
  assert (O : forall x, lenN t' <= x -> node_at t' x = None).
  { intros x Hx. destruct (node_at t' x) eqn:E; [|reflexivity]. assert (x < lenN t') by (apply node_at_in; congruence). lia. }
  split.
  - rewrite leaf_of_node. destruct (N.lt_ge_cases (2 * li) (lenN t')) as [Hx|Hx]; [|now rewrite O].
    rewrite A; [reflexivity|exact Hx|]. exists li. split; [now left|now left].
  - intros j Hj. assert (N : ~ In j [li]) by (intros [->|[]]; now apply Hj). rewrite !leaf_of_node.
    destruct (N.lt_ge_cases (2 * j) (lenN t')) as [Hx|Hx]; [rewrite B; [reflexivity|exact Hx|now apply not_hit]|].
    rewrite O by exact Hx. destruct (node_at t (2 * j)) eqn:E; [|reflexivity]. assert (2 * j < lenN t') by (apply K; congruence). lia.
Qed.
Lemma leaf_grown t j : leaf_at (grown t) j = leaf_at t j.
Proof.
  unfold leaf_at, grown. destruct (Nat.lt_ge_cases (N.to_nat (2 * j)) (length t)) as [H|H]; [now rewrite nth_error_app1|].
  rewrite nth_error_app2 by exact H. rewrite (proj2 (nth_error_None t _)) by exact H.
  destruct (nth_error (repeat None (S (length t))) _) as [o|] eqn:E; [|reflexivity]. apply nth_error_In, repeat_spec in E. now subst o.
Qed.
Lemma joined_leaves t l t' li : SpecCommitTree.joined t l t' -> leftmost_free t li -> leaf_at t' li = Some l /\ forall j, j <> li -> leaf_at t' j = leaf_at t j.
Proof.
  intros (k & t0 & i & [Hi Hi'] & Sh & A & G) [Hl Hl'].
  assert (i = li) as ->. { destruct (N.lt_trichotomy i li) as [H|[H|H]]; auto; [now apply Hl' in H|now apply Hi' in H]. }
  destruct (added_leaf _ _ _ _ _ Sh A) as [H1 H2]. split; [exact H1|]. intros j Hj. rewrite H2 by exact Hj. destruct G as [->|[-> _]]; [reflexivity|apply leaf_grown].
Qed.
Theorem added_and_removed t li k s s' r a b : leftmost_free t li -> designated r = li ->
  after_proposals t [(PAdd k, s)] a -> after_proposals a [(PRemove r, s')] b -> forall j, leaf_at b j = leaf_at t j.
Proof.
  intros F E (a1 & a2 & U & R & J) (b1 & b2 & U' & R' & J') j. unfold updatesOf, removalsOf, additionsOf in *. cbn [flat_map fst snd app] in *. rewrite E in R'.
  apply one_by_one_nil in U as ->. apply one_by_one_nil in R as ->. apply one_by_one_nil in U' as ->. apply one_by_one_nil in J' as ->.
  inversion J as [|? ? x ? ? J1 J2]; subst. apply one_by_one_nil in J2 as ->. inversion R' as [|? ? y ? ? R1 R2]; subst. apply one_by_one_nil in R2 as ->.
  destruct (joined_leaves _ _ _ _ J1 F) as [A1 A2]. destruct (removed_leaves _ _ _ R1) as [B1 B2].
  destruct (N.eq_dec j (designated r)) as [->|N]; [rewrite B1; symmetry; apply F|rewrite B2, A2; auto].
Qed.
Theorem applied_and_undone h t li k s s' r h1 t1 h2 t2 : proper h t -> well_shaped (deref h t) -> leftmost_free (deref h t) li -> designated r = li ->
  applyH h t [PAdd k] [s] = Ok (h1, t1) -> applyH h1 t1 [PRemove r] [s'] = Ok (h2, t2) -> forall j, leaf_at (deref h2 t2) j = leaf_at (deref h t) j.
Proof.
  intros P W F E A B. pose proof (applyH_value_ok _ _ _ _ _ _ P A) as [V P1]. pose proof (vapply_shape _ _ _ _ W V) as W1.
  apply (added_and_removed (deref h t) li k s s' r (deref h1 t1)); auto; apply applyH_after; eauto.
Qed.

Section WithCrypto.
Context {C : crypto}.
Theorem committed_together g m raw raw1 raw2 now now1 now2 ac ac1 ac2 c c1 c2 m' g1 g2 li li1 li2 rs ps qs : obtained g -> obtained m -> agree g m ->
  accepts_commit g raw1 now1 ac1 c1 g1 -> fc_sender (ac_content ac1) = SMember li1 -> commits g li1 c1 ps -> c_path c1 = None ->
  accepts_commit g1 raw2 now2 ac2 c2 g2 -> fc_sender (ac_content ac2) = SMember li2 -> commits g1 li2 c2 qs ->
  accepts_commit m raw now ac c m' -> fc_sender (ac_content ac) = SMember li -> commits m li c rs ->
  in_turn ps qs -> reordered rs (ps ++ qs) -> Forall (fun x => x < 2 ^ 31) (changedLeaves rs) ->
  (exists t, after_proposals (gr_value m) rs t /\ after_proposals (gr_value g1) qs t) /\
  (li = li2 -> c_path c = c_path c2 -> gr_value m' = gr_value g2).
Proof.
  intros O Om (S1 & S2 & _) A1 Hs1 Hc1 Ep A2 Hs2 Hc2 A Hs Hc I R F.
  assert (O1 : obtained g1) by (destruct A1 as (_ & _ & A1); exact (obtained_message _ _ _ _ _ O A1)).
  destruct (commit_function _ _ _ _ _ _ _ _ (obtained_sane g O) A1 Hs1 Hc1) as (t1 & T1 & E1). rewrite Ep in E1. subst t1.
  destruct (commit_function _ _ _ _ _ _ _ _ (obtained_sane g1 O1) A2 Hs2 Hc2) as (t2 & T2 & E2).
  destruct (commit_function _ _ _ _ _ _ _ _ (obtained_sane m Om) A Hs Hc) as (t & T & E).
  assert (T12 : after_proposals (gr_value g) (ps ++ qs) t2) by (apply together_or_apart; eauto). rewrite <- S2 in T12.
  pose proof (distinct_updates rs (accepted_once _ _ _ _ _ _ _ _ A Hs Hc) F) as Nd.
  assert (t = t2) as -> by exact (order_of_proposals _ _ _ _ _ R Nd T T12). split; [exists t2; auto|].
  intros -> Ec. rewrite Ec in E. assert (Cs : gc_cipherSuite (gr_context g1) = gc_cipherSuite (gr_context g)) by (destruct (commit_new_state _ _ _ _ _ _ A1) as (? & ? & ? & ? & ? & ? & -> & _); reflexivity).
  rewrite S1 in E. rewrite Cs in E2. destruct (c_path c2) as [up|]; [|congruence]. rewrite E2 in E. now apply Ok_inj in E.
Qed.
End WithCrypto.
