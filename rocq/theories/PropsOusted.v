(** The leaf of the member itself: C123. *)
From Verif Require Import OustedSamples.

(** ** C123 *)
(** A member accepts a commit that removes it and gives its leaf to another.
    Both it and the others go on in the same epoch, but they no longer accept
    what it says. *)
Theorem C123_who_follows_keeps_its_leaf_refuted :
  exists (C : crypto) g g2 raw now ac c g' ac2 c2 g2' l' data rs rg m e,
  crypto_ok C /\ obtained g /\ obtained g2 /\ agree g g2 /\ can_sign g /\
  accepts_commit g raw now ac c g' /\ accepts_commit g2 raw now ac2 c2 g2' /\ agree g' g2' /\
  leaf_at (gr_value g') (gr_myLeafIndex g') = Some l' /\ ~ still_its_leaf g ac c l' /\
  createApplicationMessage g' data rs rg = Ok m /\ unmarshalAndProcessMessage g2' m now = (g2', Err e).
Proof. exact carol_ousted. Qed.
Print Assumptions C123_who_follows_keeps_its_leaf_refuted.

(** Missing: that the member notices its removal. What holds is that there is
    no other way than this one: the leaf remains its own unless the commit
    removes it and adds whoever then has it. *)
Theorem C123_the_leaf_is_its_own_or_that_of_a_new_member_partial :
  forall (C : crypto) g raw now ac c g' li, obtained g -> accepts_commit g raw now ac c g' -> fc_sender (ac_content ac) = SMember li ->
  gr_myLeafIndex g' = gr_myLeafIndex g /\
  exists l', leaf_at (gr_value g') (gr_myLeafIndex g) = Some l' /\
    (still_its_leaf g ac c l' \/ (removes g li c (gr_myLeafIndex g) /\ adds g li c l')).
Proof. exact @own_leaf_after. Qed.
Print Assumptions C123_the_leaf_is_its_own_or_that_of_a_new_member_partial.

Theorem C123_who_is_not_removed_keeps_its_leaf_partial :
  forall (C : crypto) g raw now ac c g' li, obtained g -> accepts_commit g raw now ac c g' -> fc_sender (ac_content ac) = SMember li ->
  ~ removes g li c (gr_myLeafIndex g) -> exists l', leaf_at (gr_value g') (gr_myLeafIndex g') = Some l' /\ still_its_leaf g ac c l'.
Proof. exact @own_leaf_kept. Qed.
Print Assumptions C123_who_is_not_removed_keeps_its_leaf_partial.

(** Carol is removed and follows; Alice is not removed. *)
Example C123_example : @obtained toy gc /\ @accepts_commit toy gc commit123 clock (publicContent (fst (fst w123))) (snd (fst w123)) (snd w123) /\
  fc_sender (ac_content (publicContent (fst (fst w123)))) = SMember 1 /\ leaf_at (gr_value (snd w123)) 2 = Some lureLeaf /\
  @obtained toy ga /\ @accepts_commit toy ga commit123 clock (publicContent (fst (fst w123a))) (snd (fst w123a)) (snd w123a) /\
  c_proposals (snd (fst w123a)) = [PorProposal (PRemove 2); PorProposal (PAdd lure)] /\ gr_myLeafIndex ga = 0.
Proof. exact ousted_example. Qed.
