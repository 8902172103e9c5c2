(** Members follow whole histories (C80); the unmerged leaves in their trees (C18). *)
From Verif Require Import FollowSamples.

(** ** C80 *)
(** One member accepts some messages whose commits can be followed by [members],
    of which they are one.  Then they still hold their keys, and every member
    among [members] who started in agreement, and held their keys, accepts the
    same messages, returns the same data, and ends in agreement. *)
Theorem C80_members_follow_histories :
  forall (C : crypto) g members l ds g', crypto_ok C -> receives g l ds g' -> leads members g l ->
  obtained g -> holds_its_keys g -> In (gr_myLeafIndex g) members ->
  holds_its_keys g' /\
  forall m, obtained m -> agree g m -> gr_pending m = gr_pending g -> holds_its_keys m -> In (gr_myLeafIndex m) members ->
    exists m', receives m l ds m' /\ agree g' m' /\ gr_pending m' = gr_pending g' /\ holds_its_keys m'.
Proof. exact @follow_all. Qed.
Print Assumptions C80_members_follow_histories.

(** Bob removes Dave with a path; then Carol writes. *)
Example C80_example :
  crypto_ok toy /\ @receives toy qa l80 [None; Some (str "hi")] qa' /\ @leads toy [0; 2] qa l80 /\ @obtained toy qa /\ @holds_its_keys toy qa /\
  @obtained toy qc /\ agree qa qc /\ gr_pending qc = gr_pending qa /\ @holds_its_keys toy qc /\
  gr_myLeafIndex qa = 0 /\ gr_myLeafIndex qc = 2 /\ gc_epoch (gr_context qa') = gc_epoch (gr_context qa) + 1.
Proof. exact follow_all_example. Qed.

(** ** C18 *)
(** The trees of members: founders start with a tree as in the theorem about
    trees, and messages, whoever sent them, keep it such, if they are accepted. *)
Theorem C18_founders_start_well_formed :
  forall (C : crypto) groupID kpp rnd g, createGroup groupID kpp rnd = Ok g -> strong_rule (gr_value g).
Proof. exact @founders_have_the_rule. Qed.
Print Assumptions C18_founders_start_well_formed.

Theorem C18_accepted_messages_keep_the_rule_partial :
  forall (C : crypto) g l ds g', obtained g -> receives g l ds g' -> strong_rule (gr_value g) -> strong_rule (gr_value g').
Proof. exact @members_keep_the_rule. Qed.
Print Assumptions C18_accepted_messages_keep_the_rule_partial.

Example C18_example_members : @createGroup toy (str "grp") alice (zeros 32) = Ok g0 /\
  @obtained toy qa /\ @receives toy qa l80 [None; Some (str "hi")] qa' /\ strong_rule (gr_value qa) /\
  exists n, at_path 2 (gr_value qa') [] = Some (NParent n).
Proof. exact unmerged_example. Qed.
