(** Groups that nobody can join: C121. *)
From Verif Require Import SpoiledSamples.

(** ** C121 *)
(** Alice accepts a commit with an update of Carol that is not signed. Before it
    Dave could have joined the group, after it Dave cannot. *)
Theorem C121_members_can_be_invited_after_a_commit_refuted :
  exists (C : crypto) g raw now ac c g' li i kps rs ri rh rg kpp,
  crypto_ok C /\ obtained g /\ accepts_commit g raw now ac c g' /\ fc_sender (ac_content ac) = SMember li /\
  (forall j, ~ unsigned_leaf g j) /\ unsigned_leaf g' i /\
  In (kpp_public kpp) kps /\
  (exists g1 w raw1 j, createWelcome g kps rs ri rh rg = (g1, Ok (w, raw1)) /\ groupFromWelcome w kpp now = Ok j) /\
  (exists g1 w raw1 e, createWelcome g' kps rs ri rh rg = (g1, Ok (w, raw1)) /\ groupFromWelcome w kpp now = Err e).
Proof. exact dave_invited_in_vain. Qed.
Print Assumptions C121_members_can_be_invited_after_a_commit_refuted.

(** Nobody joins, with whatever Welcome, the group of a member in whose tree
    there is such a leaf. *)
Theorem C121_nobody_joins_a_group_with_an_unsigned_leaf_refuted :
  forall (C : crypto) m i w kpp now j, unsigned_leaf m i -> later_than_1970 now -> groupFromWelcome w kpp now = Ok j -> ~ agree m j.
Proof. exact @nobody_joins. Qed.
Print Assumptions C121_nobody_joins_a_group_with_an_unsigned_leaf_refuted.

(** Missing: that such leaves do not get into the tree. What holds is that
    another member can remove the leaf: after the commit it is blank or of a
    member that the commit adds. *)
Theorem C121_the_leaf_can_be_removed_partial :
  forall (C : crypto) g raw now ac c g' li ps i l', obtained g -> accepts_commit g raw now ac c g' -> fc_sender (ac_content ac) = SMember li -> commits g li c ps ->
  In i (removalsOf ps) -> i <> designated li -> leaf_at (gr_value g') i = Some l' -> In l' (additionsOf ps).
Proof. exact @removal_heals. Qed.
Print Assumptions C121_the_leaf_can_be_removed_partial.

(** Those whom a member invites join exactly if the tree with the new members
    is valid, and then they have this tree. *)
Theorem C121_the_invited_join_exactly_if_the_tree_is_valid_partial :
  forall (C : crypto) g kps rs ri rh rg g1 w raw kpp now, crypto_ok C -> lawful g -> ends_with_member (gr_value g) -> Forall wf_keyPackage kps ->
  createWelcome g kps rs ri rh rg = (g1, Ok (w, raw)) -> NoDup (welcomeNewMembers w) -> In (kpp_public kpp) kps ->
  holds_private_keys kpp -> kp_cipherSuite (kpp_public kpp) = gc_cipherSuite (gr_context g) -> later_than_1970 now -> can_sign g ->
  exists k t ctx, invited_tree g kps k t ctx /\
    (lists_once t -> ((exists j, groupFromWelcome w kpp now = Ok j) <-> valid_members k t ctx now)) /\
    (forall j, groupFromWelcome w kpp now = Ok j -> gr_value j = t /\ gr_context j = ctx).
Proof. exact @invited_join_iff. Qed.
Print Assumptions C121_the_invited_join_exactly_if_the_tree_is_valid_partial.

Example C121_example : @unsigned_leaf toy (snd w121) 2 /\ later_than_1970 clock /\ @groupFromWelcome toy before121 dave clock = Ok late121.
Proof. exact spoiled_example. Qed.
(** Bob removes Carol and adds Dave, who gets Carol's leaf. *)
Example C121_example_of_removal :
  exists ac c g', @obtained toy ga /\ @accepts_commit toy ga w53pathRaw clock ac c g' /\ fc_sender (ac_content ac) = SMember 1 /\
    commits ga 1 c [(PAdd (kpp_public dave), 1); (PRemove 2, 1)] /\ In 2 (removalsOf [(PAdd (kpp_public dave), 1); (PRemove 2, 1)]) /\
    leaf_at (gr_value g') 2 = Some (kp_leafNode (kpp_public dave)).
Proof. exact removal_example. Qed.
(** Dave, whom Alice invites, can join. *)
Example C121_example_of_invitation : exists g1 raw,
  @lawful toy ga /\ ends_with_member (gr_value ga) /\ wf_keyPackage (kpp_public dave) /\ invite121 ga = (g1, Ok (before121, raw)) /\
  NoDup (welcomeNewMembers before121) /\ @holds_private_keys toy dave /\ kp_cipherSuite (kpp_public dave) = gc_cipherSuite (gr_context ga) /\
  @can_sign toy ga /\ lists_once (gr_value late121) /\ @groupFromWelcome toy before121 dave clock = Ok late121.
Proof. exact invited_example. Qed.
