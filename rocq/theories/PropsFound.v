(** The key packages groups are founded with: C114. *)
From Verif Require Import FoundSamples.

(** ** C114 *)
(** CreateGroup does not look at the key package.  It makes a group from every
    key package that can be encoded, and as long as the leaf node is not valid
    (signed, current, listing its extensions) nobody can join the group with a
    Welcome made from it. *)
Theorem C114_founders_are_checked_refuted :
  forall (C : crypto) gid kpp rnd, crypto_ok C -> wf_keyPackage (kpp_public kpp) -> known_suite (kp_cipherSuite (kpp_public kpp)) ->
  lenN (enc_leafNode (kp_leafNode (kpp_public kpp))) < 2 ^ 26 ->
  exists g, createGroup gid kpp rnd = Ok g /\
  forall kps rs ri rh rg g1 w raw invited now j, Forall wf_keyPackage kps -> createWelcome g kps rs ri rh rg = (g1, Ok (w, raw)) -> NoDup (welcomeNewMembers w) ->
    In (kpp_public invited) kps -> holds_private_keys invited -> kp_cipherSuite (kpp_public invited) = gc_cipherSuite (gr_context g) -> later_than_1970 now ->
    ~ leaf_checked (gr_context g) now 0 (kp_leafNode (kpp_public kpp)) -> groupFromWelcome w invited now <> Ok j.
Proof. exact @useless_groups. Qed.
Print Assumptions C114_founders_are_checked_refuted.

(** What holds is that those who join check all the leaves the inviter has,
    the founder's and everybody else's. *)
Theorem C114_new_members_check_the_leaves_partial :
  forall (C : crypto) g kps rs ri rh rg g1 w raw kpp now j, crypto_ok C -> lawful g -> ends_with_member (gr_value g) -> Forall wf_keyPackage kps ->
  createWelcome g kps rs ri rh rg = (g1, Ok (w, raw)) -> NoDup (welcomeNewMembers w) -> In (kpp_public kpp) kps ->
  holds_private_keys kpp -> kp_cipherSuite (kpp_public kpp) = gc_cipherSuite (gr_context g) -> later_than_1970 now ->
  groupFromWelcome w kpp now = Ok j -> usable (gr_context g) (gr_value g) now.
Proof. exact @joined_inviters_tree. Qed.
Print Assumptions C114_new_members_check_the_leaves_partial.

(** A group that was founded with a valid key package can be joined. *)
Theorem C114_valid_founders_can_invite_partial :
  forall (C : crypto) gid kpp rnd g kps rs ri rh rg g1 w raw invited now, crypto_ok C -> founder kpp -> createGroup gid kpp rnd = Ok g ->
  may_join g kps -> lenN rg = 4 -> createWelcome g kps rs ri rh rg = (g1, Ok (w, raw)) -> NoDup (welcomeNewMembers w) ->
  In (kpp_public invited) kps -> holds_private_keys invited -> later_than_1970 now -> all_current g kps now ->
  exists j, groupFromWelcome w invited now = Ok j.
Proof. exact @useful_groups. Qed.
Print Assumptions C114_valid_founders_can_invite_partial.

(** Dave, whose leaf node has a wrong signature, founds a group and invites Bob,
    who gets an error.  Bob can join a group founded by Alice. *)
Example C114_example :
  wf_keyPackage (kpp_public daveBogus) /\ known_suite (kp_cipherSuite (kpp_public daveBogus)) /\
  lenN (enc_leafNode (kp_leafNode (kpp_public daveBogus))) < 2 ^ 26 /\
  @createGroup toy (str "grp") daveBogus (zeros 32) = Ok bogusGroup /\
  ~ @leaf_checked toy (gr_context bogusGroup) clock 0 (kp_leafNode (kpp_public daveBogus)) /\
  @createWelcome toy bogusGroup [kpp_public bob] [] [] [str "z"] (str "efgh") = (fst bogusWelcome, Ok (snd bogusWelcome)) /\
  (exists e, @groupFromWelcome toy (fst (snd bogusWelcome)) bob clock = Err e) /\
  (exists gid rnd g1 w raw, @createGroup toy gid alice rnd = Ok g0 /\
     @createWelcome toy g0 [kpp_public bob; kpp_public carol] [] [] [str "x"; str "y"] (str "abcd") = (g1, Ok (w, raw)) /\ @groupFromWelcome toy w bob clock = Ok gb).
Proof. exact found_example. Qed.
