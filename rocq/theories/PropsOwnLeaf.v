(** Who changes the leaves of the tree: C83. *)
From Verif Require Import OwnLeafSamples.

(** ** C83 *)
Theorem C83_leaves_are_kept :
  forall (C : crypto) g raw now ac c g' li i l, obtained g -> accepts_commit g raw now ac c g' -> fc_sender (ac_content ac) = SMember li ->
  leaf_at (gr_value g) i = Some l ->
  leaf_at (gr_value g') i = Some l \/ removes g li c i \/ exists l', by_its_member g ac c i l' /\ leaf_at (gr_value g') i = Some l'.
Proof. exact @leaves_kept. Qed.
Print Assumptions C83_leaves_are_kept.

Theorem C83_where_leaves_come_from :
  forall (C : crypto) g raw now ac c g' li i l', obtained g -> accepts_commit g raw now ac c g' -> fc_sender (ac_content ac) = SMember li ->
  leaf_at (gr_value g') i = Some l' -> leaf_at (gr_value g) i = Some l' \/ adds g li c l' \/ by_its_member g ac c i l'.
Proof. exact @leaves_come_from. Qed.
Print Assumptions C83_where_leaves_come_from.

Theorem C83_a_leaf_stays_until_it_is_removed_or_its_member_signs_another :
  forall (C : crypto) l g i lf, obtained g -> leaf_at (gr_value g) i = Some lf ->
  leaf_at (gr_value (after g l)) i = Some lf \/
  exists l1 raw now l2 ac c li g2, l = l1 ++ (raw, now) :: l2 /\ let g1 := after g l1 in
    leaf_at (gr_value g1) i = Some lf /\ accepts_commit g1 raw now ac c g2 /\ fc_sender (ac_content ac) = SMember li /\
    (removes g1 li c i \/ exists l', by_its_member g1 ac c i l' /\ leaf_at (gr_value g2) i = Some l').
Proof. exact @leaf_stays. Qed.
Print Assumptions C83_a_leaf_stays_until_it_is_removed_or_its_member_signs_another.

Example C83_example :
  @obtained toy qa /\ gr_value (after (C := toy) qa [(other81, clock); (prop81, clock); (commit81, clock)]) = gr_value (snd w81) /\
  exists ac c l0 l1 l1' l2 l3, @accepts_commit toy qa1 commit81 clock ac c (snd w81) /\ fc_sender (ac_content ac) = SMember 1 /\
    map (leaf_at (gr_value qa1)) [0; 1; 2; 3] = [Some l0; Some l1; Some l2; Some l3] /\
    map (leaf_at (gr_value (snd w81))) [0; 1; 2; 3] = [Some l0; Some l1'; Some l2; None] /\ l1' <> l1.
Proof. exact own_leaf_example. Qed.
