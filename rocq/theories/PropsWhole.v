(** Whoever is invited gets the tree of the inviter: C88. *)
From Verif Require Import WholeSamples.

(** ** C88 *)
(** The encoding of a tree drops its trailing blank nodes, so a tree with a
    blank right half is not read back at its size.  The trees of founders have
    no blank right half, and messages and invitations leave none. *)
Theorem C88_founders_trees_end_with_a_member :
  forall (C : crypto) groupID kpp rnd g, createGroup groupID kpp rnd = Ok g -> ends_with_member (gr_value g).
Proof. exact @created_ends. Qed.
Print Assumptions C88_founders_trees_end_with_a_member.

Theorem C88_messages_keep_trees_ending_with_a_member :
  forall (C : crypto) g raw now g' r, obtained g -> unmarshalAndProcessMessage g raw now = (g', r) ->
  ends_with_member (gr_value g) -> ends_with_member (gr_value g').
Proof. exact @message_ends. Qed.
Print Assumptions C88_messages_keep_trees_ending_with_a_member.

Theorem C88_invitations_keep_trees_ending_with_a_member :
  forall (C : crypto) g kps rs ri rh rg g' r, obtained g -> createWelcome g kps rs ri rh rg = (g', r) ->
  ends_with_member (gr_value g) -> ends_with_member (gr_value g').
Proof. exact @invitation_ends. Qed.
Print Assumptions C88_invitations_keep_trees_ending_with_a_member.

(** Missing: the members that joined with a tree with a blank right half. *)
Theorem C88_encoded_trees_are_read_back_whole_partial :
  forall (C : crypto) g raw, lawful g -> ends_with_member (gr_value g) -> putRatchetTree (gr_value g) = Ok raw ->
  unmarshal getRatchetTree raw = Ok (gr_value g).
Proof. exact @whole_tree_sent. Qed.
Print Assumptions C88_encoded_trees_are_read_back_whole_partial.

Theorem C88_invitations_carry_the_whole_tree_partial :
  forall (C : crypto) g kps rs ri rh rg g1 w raw, crypto_ok C -> lawful g -> ends_with_member (gr_value g) -> Forall wf_keyPackage kps ->
  createWelcome g kps rs ri rh rg = (g1, Ok (w, raw)) -> sends_tree g kps w.
Proof. exact @whole_tree_invited. Qed.
Print Assumptions C88_invitations_carry_the_whole_tree_partial.

(** Dave joined with a tree whose right half is blank, which no check refuses. *)
Theorem C88_encoded_trees_are_read_back_whole_refuted :
  exists (C : crypto) w kpp now g raw t,
  crypto_ok C /\ later_than_1970 now /\ groupFromWelcome w kpp now = Ok g /\ putRatchetTree (gr_value g) = Ok raw /\ unmarshal getRatchetTree raw = Ok t /\ t <> gr_value g.
Proof. exact other_tree_sent. Qed.
Print Assumptions C88_encoded_trees_are_read_back_whole_refuted.

(** Dave invites Bob, who cannot join. *)
Theorem C88_invitations_carry_the_whole_tree_refuted :
  exists (C : crypto) w0 kpp0 now g kps rs ri rh rg g1 w raw kpp e,
  crypto_ok C /\ later_than_1970 now /\ groupFromWelcome w0 kpp0 now = Ok g /\ may_join g kps /\ all_current g kps now /\
  createWelcome g kps rs ri rh rg = (g1, Ok (w, raw)) /\ In (kpp_public kpp) kps /\ holds_private_keys kpp /\ groupFromWelcome w kpp now = Err e.
Proof. exact invited_in_vain. Qed.
Print Assumptions C88_invitations_carry_the_whole_tree_refuted.

(** Alice's tree, after a commit, and Dave's. *)
Example C88_example :
  @lawful toy qa' /\ ends_with_member (gr_value qa') /\ (exists raw, putRatchetTree (gr_value qa') = Ok raw) /\
  @lawful toy wideJoined /\ ~ ends_with_member (gr_value wideJoined).
Proof. exact whole_example. Qed.
