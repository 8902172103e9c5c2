(** Where the keys of parent nodes come from, and whom they outlive: C86. *)
From Verif Require Import NodeKeysSamples.

(** ** C86 *)
Theorem C86_parent_nodes_after_a_commit :
  forall (C : crypto) g raw now ac c g' x n, obtained g -> accepts_commit g raw now ac c g' -> parent_at (gr_value g') x = Some n ->
  stays (gr_value g) (gr_value g') x n \/ brings_key g ac c x (pn_encryptionKey n).
Proof. exact @parents_after_commit. Qed.
Print Assumptions C86_parent_nodes_after_a_commit.

Theorem C86_parent_nodes_over_histories :
  forall (C : crypto) l g x n, obtained g -> parent_at (gr_value (after g l)) x = Some n ->
  stays (gr_value g) (gr_value (after g l)) x n \/
  exists l1 raw now l2 ac c g2, l = l1 ++ (raw, now) :: l2 /\ let g1 := after g l1 in
    accepts_commit g1 raw now ac c g2 /\ brings_key g1 ac c x (pn_encryptionKey n) /\ stays (gr_value g2) (gr_value (after g l)) x n.
Proof. exact @parents_over_histories. Qed.
Print Assumptions C86_parent_nodes_over_histories.

Theorem C86_parent_nodes_after_an_invitation :
  forall (C : crypto) g kps rs ri rh rg g' r x n, obtained g -> createWelcome g kps rs ri rh rg = (g', r) ->
  parent_at (gr_value g') x = Some n -> stays (gr_value g) (gr_value g') x n.
Proof. exact @parents_after_invitation. Qed.
Print Assumptions C86_parent_nodes_after_an_invitation.

Theorem C86_founders_have_no_parent_nodes :
  forall (C : crypto) gid kpp rnd g x, createGroup gid kpp rnd = Ok g -> parent_at (gr_value g) x = None.
Proof. exact @parents_of_founders. Qed.
Print Assumptions C86_founders_have_no_parent_nodes.

Example C86_example :
  @obtained toy qa /\ exists n ac c u,
    parent_at (gr_value (after (C := toy) qa history86)) 3 = Some n /\ pn_unmergedLeaves n = [3] /\
    @accepts_commit toy (after (C := toy) qa (firstn 2 history86)) commit81 clock ac c (after (C := toy) qa (firstn 3 history86)) /\
    option_map up_nodes (c_path c) = Some u /\ In (pn_encryptionKey n) (map upn_encryptionKey u) /\
    leaf_at (gr_value (after (C := toy) qa (firstn 3 history86))) 3 = None /\
    leaf_at (gr_value (after (C := toy) qa history86)) 3 = Some (kp_leafNode (kpp_public erin)) /\
    parent_at (gr_value (after (C := toy) qa history86)) 1 = parent_at (gr_value (after (C := toy) qa (firstn 3 history86))) 1.
Proof. exact node_keys_example. Qed.
Example C86_example_over : over 3 2 /\ over 5 2 /\ ~ over 1 2.
Proof. exact over_example. Qed.
