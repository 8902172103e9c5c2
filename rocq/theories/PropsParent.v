(** Parent-hash validity of the trees of members: C73. *)
From Verif Require Import ParentSamples.

(** ** C73 *)
Theorem C73_founders_have_valid_parent_nodes :
  forall (C : crypto) groupID kpp rnd g, createGroup groupID kpp rnd = Ok g -> rfc_parents_valid (gc_cipherSuite (gr_context g)) (gr_value g).
Proof. exact @created_valid. Qed.
Print Assumptions C73_founders_have_valid_parent_nodes.

Theorem C73_accepted_messages_keep_parent_nodes_valid :
  forall (C : crypto) g raw now g' r, obtained g -> rfc_parents_valid (gc_cipherSuite (gr_context g)) (gr_value g) ->
  unmarshalAndProcessMessage g raw now = (g', Ok r) -> rfc_parents_valid (gc_cipherSuite (gr_context g')) (gr_value g').
Proof. exact @messages_keep_valid. Qed.
Print Assumptions C73_accepted_messages_keep_parent_nodes_valid.

(** After the commit of Bob the root is not blank. *)
Example C73_example :
  @obtained toy ga /\ @rfc_parents_valid toy (gc_cipherSuite (gr_context ga)) (gr_value ga) /\
  exists g' r n, @unmarshalAndProcessMessage toy ga w53pathRaw clock = (g', Ok r) /\ at_path 2 (gr_value g') [] = Some (NParent n).
Proof. exact parents_example. Qed.

(** Joining does not check that the other nodes of the resolution are unmerged
    leaves: Dave joins a tree whose root is not parent-hash valid. *)
Theorem C73_joiners_have_valid_parent_nodes_refuted :
  exists (C : crypto) w kpp now g,
  crypto_ok C /\ later_than_1970 now /\ groupFromWelcome w kpp now = Ok g /\ ~ rfc_parents_valid (gc_cipherSuite (gr_context g)) (gr_value g).
Proof. exact unmerged_unchecked. Qed.
Print Assumptions C73_joiners_have_valid_parent_nodes_refuted.

(** A node of the resolution of a child has the parent hash. *)
Theorem C73_joiners_have_linked_parent_nodes_partial :
  forall (C : crypto) w kpp now g, later_than_1970 now -> groupFromWelcome w kpp now = Ok g ->
  exists k, shaped k (gr_value g) /\ forall p n, in_tree k p -> at_path k (gr_value g) p = Some (NParent n) ->
    exists b q, linked_from (gc_cipherSuite (gr_context g)) k (gr_value g) p n b q.
Proof. exact @joined_linked. Qed.
Print Assumptions C73_joiners_have_linked_parent_nodes_partial.

Example C73_joiner_example : @groupFromWelcome toy welcome73 dave clock = Ok joined73 /\ at_path 2 (gr_value joined73) [] = Some (NParent rootNode73).
Proof. split; [exact (proj1 joined73_eq)|vm_compute; reflexivity]. Qed.
