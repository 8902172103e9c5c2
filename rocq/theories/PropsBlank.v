(** Removals of nobody: C111. *)
From Verif Require Import BlankSamples.

(** ** C111 *)
(** A commit that removes a leaf without a member is accepted like any other:
    nothing else than what is asked of every commit is asked of it. *)
Theorem C111_removals_remove_members_refuted :
  forall (C : crypto) g raw ac c li ps t' now r s, crypto_ok C -> obtained g -> known_suite (gc_cipherSuite (gr_context g)) ->
  delivered g raw ac -> acceptable_commit g ac c li ps -> valid_tree g c li ps t' ->
  In (PRemove r, s) ps -> leaf_at (gr_value g) (designated r) = None ->
  exists g', accepts_commit g raw now ac c g' /\ gr_value g' = t'.
Proof. exact @blank_removal_accepted. Qed.
Print Assumptions C111_removals_remove_members_refuted.

(** What holds is that the leaf is in the tree. *)
Theorem C111_removals_are_in_the_tree_partial :
  forall (C : crypto) g raw now ac c g' li ps r s, obtained g -> accepts_commit g raw now ac c g' ->
  fc_sender (ac_content ac) = SMember li -> commits g li c ps -> In (PRemove r, s) ps -> 2 * designated r < lenN (gr_value g).
Proof. exact @removals_in_tree. Qed.
Print Assumptions C111_removals_are_in_the_tree_partial.

(** The group has the three members 0, 1 and 2.  Bob removes 3, and Alice
    accepts the commit. *)
Example C111_example :
  crypto_ok toy /\ @obtained toy ga /\ known_suite (gc_cipherSuite (gr_context ga)) /\
  @delivered toy ga w111raw ac111 /\ @acceptable_commit toy ga ac111 c111 1 [(PRemove 3, 1)] /\
  @valid_tree toy ga c111 1 [(PRemove 3, 1)] (gr_value (snd w111)) /\
  leaf_at (gr_value ga) (designated 3) = None /\ leaf_at (gr_value ga) 2 <> None /\
  @accepts_commit toy ga w111raw clock ac111 c111 (snd w111) /\ lenN (gr_value ga) = 7.
Proof.
  split; [exact toy_ok|]. split; [exact ga_obtained|]. split; [eexists; vm_compute; reflexivity|]. split; [exact delivered111|]. split; [exact commit111|].
  split; [exact tree111|]. split; [vm_compute; reflexivity|]. split; [vm_compute; discriminate|]. split; [exact accepts111|vm_compute; reflexivity].
Qed.
