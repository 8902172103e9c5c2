(** Copies of the secrets of a member: C127. *)
From Verif Require Import CopiedSamples.

(** ** C127 *)
(** The only commits that the library makes, those of CreateWelcome, shut nobody
    out: whoever has a copy of the shared secrets goes on with the group, without
    any private keys, through any number of them. *)
Theorem C127_invitations_renew_the_secrets_refuted :
  forall (C : crypto) m m' thief, crypto_ok C -> obtained m -> copied m thief -> only_invitations m m' ->
  exists l, copied m' (after thief l).
Proof. exact @copies_follow. Qed.
Print Assumptions C127_invitations_renew_the_secrets_refuted.

(** Whoever has such a copy reads what the members write. *)
Theorem C127_copied_secrets_read_messages_refuted :
  forall (C : crypto) g thief a data rs rg raw now, crypto_ok C -> obtained a -> can_sign a -> copied g thief -> same_epoch a g -> lenN rg = 4 ->
  createApplicationMessage a data rs rg = Ok raw -> unmarshalAndProcessMessage thief raw now = (thief, Ok (Some data)).
Proof. exact @copies_read. Qed.
Print Assumptions C127_copied_secrets_read_messages_refuted.

(** Missing: that the library can make commits with update paths.  What holds is
    that those of others shut out whoever has no private keys (C99 says exactly
    which private keys are needed). *)
Theorem C127_update_paths_shut_out_copies_partial :
  forall (C : crypto) g raw now ac c up thief, copied g thief -> c_path c = Some up -> forall thief', ~ accepts_commit thief raw now ac c thief'.
Proof. exact @paths_shut_out. Qed.
Print Assumptions C127_update_paths_shut_out_copies_partial.

Example C127_example : @obtained toy ga /\ copied ga thief /\ @only_invitations toy ga qa /\ gr_epochSecret qa <> gr_epochSecret ga /\
  @unmarshalAndProcessMessage toy thief (snd (snd secondWelcome)) clock = (thief', Ok None) /\ agree qa thief' /\
  @createApplicationMessage toy qb (str "for all four") [] (str "abcd") = Ok forAll /\
  @unmarshalAndProcessMessage toy thief' forAll clock = (thief', Ok (Some (str "for all four"))).
Proof. exact copied_example. Qed.
(** A commit with an update path *)
Example C127_example_of_a_path : copied qa (withoutKeys qa) /\
  (exists ac c g', @accepts_commit toy qa w50raw clock ac c g' /\ c_path c <> None) /\
  snd (@unmarshalAndProcessMessage toy (withoutKeys qa) w50raw clock) = Err "mls: no private key found".
Proof. exact healed_example. Qed.
