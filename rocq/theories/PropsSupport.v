(** Members support what is used in their group: C90. *)
From Verif Require Import SupportSamples.

(** ** C90 *)
(** Extensions of leaf nodes: those who join have checked that every leaf lists
    the types of its extensions. *)
Theorem C90_joined_trees_list_their_extensions :
  forall (C : crypto) w kpp now g, later_than_1970 now -> groupFromWelcome w kpp now = Ok g -> extensions_listed (gr_value g).
Proof. exact @joined_extensions. Qed.
Print Assumptions C90_joined_trees_list_their_extensions.

(** Commits keep that, but for the leaves of add and update proposals, which
    are not verified. *)
Theorem C90_commits_keep_extensions_listed_partial :
  forall (C : crypto) g raw now ac c g' li ps,
  obtained g -> accepts_commit g raw now ac c g' -> fc_sender (ac_content ac) = SMember li -> commits g li c ps ->
  extensions_listed (gr_value g) -> (forall l, brought ps l -> leaf_lists_extensions l) -> extensions_listed (gr_value g').
Proof. exact @commit_extensions. Qed.
Print Assumptions C90_commits_keep_extensions_listed_partial.

Theorem C90_commits_keep_extensions_listed_refuted :
  exists (C : crypto) g raw now ac c g',
  crypto_ok C /\ obtained g /\ accepts_commit g raw now ac c g' /\ extensions_listed (gr_value g) /\ ~ extensions_listed (gr_value g').
Proof. exact odd_commit. Qed.
Print Assumptions C90_commits_keep_extensions_listed_refuted.

(** Credential types: the leaf of an update path has a type that the others
    list, but whether it lists the types of the others is not checked.  If it
    does, support is kept. *)
Theorem C90_paths_keep_credentials_supported_partial :
  forall (C : crypto) g raw now ac c g' li ps up,
  obtained g -> accepts_commit g raw now ac c g' -> fc_sender (ac_content ac) = SMember li -> commits g li c ps -> c_path c = Some up ->
  exists t, after_proposals (gr_value g) ps t /\
    (lists_once t -> credentials_supported t ->
     (forall j l, leaf_at (gr_value g') j = Some l -> In (cred_type (ln_credential l)) (caps_credentials (ln_capabilities (up_leafNode up)))) ->
     credentials_supported (gr_value g')).
Proof. exact @path_credentials. Qed.
Print Assumptions C90_paths_keep_credentials_supported_partial.

Theorem C90_paths_keep_credentials_supported_refuted :
  exists (C : crypto) g raw now ac c g',
  crypto_ok C /\ obtained g /\ accepts_commit g raw now ac c g' /\ c_proposals c = [] /\ lists_once (gr_value g) /\
  credentials_supported (gr_value g) /\ ~ credentials_supported (gr_value g').
Proof. exact silent_commit. Qed.
Print Assumptions C90_paths_keep_credentials_supported_refuted.

(** What the group requires of its members is not looked at: nobody in this
    group has the capabilities that it requires. *)
Theorem C90_members_have_the_required_capabilities_refuted :
  exists (C : crypto) w kpp now g r,
  crypto_ok C /\ later_than_1970 now /\ groupFromWelcome w kpp now = Ok g /\ requires (gr_context g) r /\
  forall li l, leaf_at (gr_value g) li = Some l -> ~ has_capabilities r l.
Proof. exact demanding_group. Qed.
Print Assumptions C90_members_have_the_required_capabilities_refuted.

(** Carol's commit with a path. *)
Example C90_example : exists raw ac c g' up,
  @obtained toy ga /\ @accepts_commit toy ga raw clock ac c g' /\ fc_sender (ac_content ac) = SMember 2 /\ commits ga 2 c [] /\ c_path c = Some up /\
  lists_once (gr_value ga) /\ credentials_supported (gr_value ga) /\ extensions_listed (gr_value ga) /\
  (forall j l, leaf_at (gr_value g') j = Some l -> In (cred_type (ln_credential l)) (caps_credentials (ln_capabilities (up_leafNode up)))) /\
  credentials_supported (gr_value g') /\ extensions_listed (gr_value g').
Proof. exact support_example. Qed.
