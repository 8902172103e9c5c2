(** The private keys of blank nodes: C115. *)
From Verif Require Import StaleSamples.

(** ** C115 *)
(** A private key that the member had of a node that is blank after a commit is
    kept. *)
Theorem C115_keys_of_blank_nodes_are_erased_refuted :
  forall (C : crypto) g raw now ac c g' i key, obtained g -> accepts_commit g raw now ac c g' ->
  has_key g i key -> blank_node g' i -> has_key g' i key.
Proof. exact @blanked_keys_kept. Qed.
Print Assumptions C115_keys_of_blank_nodes_are_erased_refuted.

(** This is the only way to come to such a key: after a commit there are none
    exactly if the member had no key of a node that is blank now. *)
Theorem C115_exactly_the_blanked_are_kept_partial :
  forall (C : crypto) g raw now ac c g', obtained g -> accepts_commit g raw now ac c g' ->
  tidy g' <-> forall i key, has_key g i key -> ~ blank_node g' i.
Proof. exact @tidy_after. Qed.
Print Assumptions C115_exactly_the_blanked_are_kept_partial.

(** Those who found a group or join it have none. *)
Theorem C115_founders_have_no_such_keys_partial :
  forall (C : crypto) groupID kpp rnd g, createGroup groupID kpp rnd = Ok g -> tidy g.
Proof. exact @created_tidy. Qed.
Print Assumptions C115_founders_have_no_such_keys_partial.
Theorem C115_joiners_have_no_such_keys_partial :
  forall (C : crypto) w kpp now g, groupFromWelcome w kpp now = Ok g -> tidy g.
Proof. exact @joined_tidy. Qed.
Print Assumptions C115_joiners_have_no_such_keys_partial.

(** Dave commits with a path, and Carol gets the private key of the node above
    the two.  Bob removes Dave, which makes the node blank.  Carol keeps the
    key. *)
Example C115_example : exists ac c key,
  @obtained toy qc /\ tidy qc /\ @obtained toy carol1 /\ tidy carol1 /\ @accepts_commit toy carol1 bobs clock ac c carol2 /\
  has_key carol1 5 key /\ ~ blank_node carol1 5 /\ blank_node carol2 5 /\ has_key carol2 5 key.
Proof. exact stale_example. Qed.
