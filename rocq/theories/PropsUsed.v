(** The keys of messages that have been read: C125. *)
From Verif Require Import UsedSamples.

(** ** C125 *)
(** Whatever a member hears after a message, short of a commit, it can still
    decrypt the message. *)
Theorem C125_read_messages_can_no_longer_be_decrypted_refuted :
  forall (C : crypto) g raw now g1 d l now', obtained g -> unmarshalAndProcessMessage g raw now = (g1, Ok (Some d)) ->
  commits_accepted g1 l 0 -> unmarshalAndProcessMessage (after g1 l) raw now' = (after g1 l, Ok (Some d)).
Proof. exact @still_readable. Qed.
Print Assumptions C125_read_messages_can_no_longer_be_decrypted_refuted.

(** So can the sender of the message. *)
Theorem C125_sent_messages_can_no_longer_be_decrypted_refuted :
  forall (C : crypto) g data rs rg m l now, crypto_ok C -> obtained g -> can_sign g -> lenN rg = 4 ->
  createApplicationMessage g data rs rg = Ok m -> commits_accepted g l 0 ->
  unmarshalAndProcessMessage (after g l) m now = (after g l, Ok (Some data)).
Proof. exact @sent_readable. Qed.
Print Assumptions C125_sent_messages_can_no_longer_be_decrypted_refuted.

(** Missing: that a key is erased once it has been used.  What holds is that
    the next commit ends it (until the number of the epoch overflows); C93 says
    that the secrets of the epoch are erased then. *)
Theorem C125_read_messages_are_rejected_after_the_next_commit_partial :
  forall (C : crypto) g raw now g1 d l n now', obtained g -> unmarshalAndProcessMessage g raw now = (g1, Ok (Some d)) ->
  commits_accepted g1 l n -> 0 < n -> n < 2 ^ 64 ->
  exists err, unmarshalAndProcessMessage (after g1 l) raw now' = (after g1 l, Err err).
Proof. exact @unreadable_later. Qed.
Print Assumptions C125_read_messages_are_rejected_after_the_next_commit_partial.

Example C125_example : @obtained toy ga /\ @unmarshalAndProcessMessage toy ga w35raw clock = (ga, Ok (Some (str "hello"))) /\
  @commits_accepted toy ga meanwhile 0 /\ length (gr_pending (@after toy ga meanwhile)) = 1%nat /\
  @unmarshalAndProcessMessage toy (@after toy ga meanwhile) w35raw clock = (@after toy ga meanwhile, Ok (Some (str "hello"))) /\
  @can_sign toy ga /\ @createApplicationMessage toy ga (str "yes") [] (str "abcd") = Ok yesA /\
  @unmarshalAndProcessMessage toy (@after toy ga meanwhile) yesA clock = (@after toy ga meanwhile, Ok (Some (str "yes"))).
Proof. exact used_example. Qed.
