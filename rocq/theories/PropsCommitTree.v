(** The tree after a commit and the tree of a Welcome: C70, C71. *)
From Verif Require Import CommitTreeSamples.

(** ** C70 *)
Theorem C70_the_tree_after_a_commit :
  forall (C : crypto) g raw now ac c g' li ps,
  obtained g -> accepts_commit g raw now ac c g' -> fc_sender (ac_content ac) = SMember li -> commits g li c ps ->
  exists t, after_proposals (gr_value g) ps t /\
    match c_path c with
    | None => gr_value g' = t
    | Some up => path_checked (gc_cipherSuite (gr_context g)) (gc_groupID (gr_context g)) t li up /\
        exists k, shaped k t /\ shaped k (gr_value g') /\ merged (gc_cipherSuite (gr_context g)) k t (gr_value g') (designated li) up
    end.
Proof. exact @tree_after_commit. Qed.
Print Assumptions C70_the_tree_after_a_commit.

Example C70_example :
  exists ac c g' up, @obtained toy ga /\ @accepts_commit toy ga w53pathRaw clock ac c g' /\ fc_sender (ac_content ac) = SMember 1 /\
    commits ga 1 c [(PAdd (kpp_public dave), 1); (PRemove 2, 1)] /\ c_path c = Some up /\ up_nodes up <> [] /\
    leaf_at (gr_value ga) 1 <> Some (up_leafNode up) /\ leaf_at (gr_value g') 1 = Some (up_leafNode up) /\
    leaf_at (gr_value g') 2 = Some (kp_leafNode (kpp_public dave)).
Proof. exact commit_tree_example. Qed.

(** ** C71 *)
(** The last of the nodes received is not checked: Dave joins a tree twice as
    large as it should be. *)
Theorem C71_trees_ending_with_a_blank_node_are_refused_refuted :
  exists (C : crypto) w kpp now g gi l,
  crypto_ok C /\ groupFromWelcome w kpp now = Ok g /\ let_in w kpp g gi /\ brings_tree gi (l ++ [None]) /\
  lenN (gr_value g) = 7 /\ forall j, 2 <= j -> leaf_at (gr_value g) j = None.
Proof. exact blank_end_accepted. Qed.
Print Assumptions C71_trees_ending_with_a_blank_node_are_refused_refuted.

(** The tree of the joiner is the one received with the fewest possible blank
    nodes added to make it a full tree. *)
Theorem C71_the_tree_of_a_welcome_partial :
  forall (C : crypto) w kpp now g, groupFromWelcome w kpp now = Ok g ->
  exists gi l n d, let_in w kpp g gi /\ brings_tree gi l /\
    gr_value g = l ++ repeat None n /\ lenN (gr_value g) + 1 = 2 ^ d /\ forall d', lenN l + 1 <= 2 ^ d' -> 2 ^ d <= 2 ^ d'.
Proof. exact @tree_in_welcome. Qed.
Print Assumptions C71_the_tree_of_a_welcome_partial.

Example C71_example : @groupFromWelcome toy pairWelcome dave clock = Ok pairJoined /\ @let_in toy pairWelcome dave pairJoined pairInfo /\
  brings_tree pairInfo pairNodes /\ gr_value pairJoined = pairNodes.
Proof. exact tree_in_welcome_example. Qed.
