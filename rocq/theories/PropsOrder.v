(** The order of the proposals of a commit: C102. *)
From Verif Require Import OrderSamples.

(** ** C102 *)
(** The order of updates and removals, and of proposals of different types, does
    not matter for the tree. *)
Theorem C102_the_order_of_proposals_does_not_matter :
  forall t ps qs a b, reordered ps qs -> NoDup (map fst (updatesOf ps)) -> after_proposals t ps a -> after_proposals t qs b -> a = b.
Proof. exact order_of_proposals. Qed.
Print Assumptions C102_the_order_of_proposals_does_not_matter.

(** So for two commits that members in agreement accept: the update paths are
    merged into the same tree, and if the commits come with the same path of the
    same sender, then the trees are the same. *)
Theorem C102_reordered_commits_give_the_same_tree :
  forall (C : crypto) g m raw raw' now now' ac ac' c c' g' m' li li' ps qs, obtained g -> obtained m -> agree g m ->
  accepts_commit g raw now ac c g' -> fc_sender (ac_content ac) = SMember li -> commits g li c ps ->
  accepts_commit m raw' now' ac' c' m' -> fc_sender (ac_content ac') = SMember li' -> commits m li' c' qs ->
  reordered ps qs -> Forall (fun x => x < 2 ^ 31) (changedLeaves ps) ->
  (exists t, after_proposals (gr_value g) ps t /\ after_proposals (gr_value m) qs t) /\
  (li' = li -> c_path c' = c_path c -> gr_value m' = gr_value g').
Proof. exact @order_of_commits. Qed.
Print Assumptions C102_reordered_commits_give_the_same_tree.

Example C102_example :
  @obtained toy qa /\
  (exists ac c, @accepts_commit toy qa commit102 clock ac c (snd w102) /\ fc_sender (ac_content ac) = SMember 1 /\ commits qa 1 c [(PRemove 2, 1); (PRemove 3, 1)]) /\
  (exists ac c, @accepts_commit toy qa commit102r clock ac c (snd w102r) /\ fc_sender (ac_content ac) = SMember 1 /\ commits qa 1 c [(PRemove 3, 1); (PRemove 2, 1)]) /\
  reordered [(PRemove 2, 1); (PRemove 3, 1)] [(PRemove 3, 1); (PRemove 2, 1)] /\
  gr_value (snd w102) = gr_value (snd w102r) /\ gr_context (snd w102) <> gr_context (snd w102r) /\ gr_value (snd w102) <> gr_value qa /\ lenN (gr_value (snd w102)) = 3.
Proof. exact order_example. Qed.
