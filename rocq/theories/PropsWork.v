(** The work for a message: C85. *)
From Verif Require Import WorkSamples GroupSamples.

(** ** C85: false of the code; the sender chooses how often the receiver has to
    advance the message ratchet (group.go:362, "TODO: limit number of
    iterations"). *)
Theorem C85_work_is_not_limited_refuted :
  exists (C : crypto) (g : group), crypto_ok C /\ obtained g /\
  forall n now, n < 2 ^ 32 -> exists raw d, lenN raw < 300 /\ unmarshalAndProcessMessage g raw now = (g, Ok (Some d)) /\ messageWork g raw = n.
Proof.
  exists toy, ga. split; [exact toy_ok|]. split; [exact ga_obtained|]. intros n now H.
  destruct (work_example n now H) as (raw & H1 & H2 & H3). exists raw, (str "hello"). auto.
Qed.
Print Assumptions C85_work_is_not_limited_refuted.

(** In every group: what a member can send in a private message, it can send
    so that it costs any number of steps. *)
Theorem C85_every_member_can_ask_for_any_number_of_steps :
  forall (C : crypto) g raw c a n, crypto_ok C -> known_suite (gc_cipherSuite (gr_context g)) -> delivered g raw (mkAuthenticatedContent 2 c a) ->
  lenN (enc_authenticatedContentTBM 2 c (gr_context g) a) < 2 ^ 26 -> n < 2 ^ 32 ->
  exists raw', delivered g raw' (mkAuthenticatedContent 2 c a) /\ messageWork g raw' = n /\
    lenN raw' <= lenN (enc_authenticatedContentTBM 2 c (gr_context g) a) + 100.
Proof. exact @any_work. Qed.
Print Assumptions C85_every_member_can_ask_for_any_number_of_steps.

(** What holds: only a message of this group and epoch, whose sender data was
    encrypted with the secret of the epoch, costs any step, and no more than
    the generation in it, a 32-bit number.  Missing for the full property: a
    limit below that. *)
Theorem C85_only_members_can_ask_for_steps_partial :
  forall (C : crypto) g raw, messageWork g raw = 0 \/
  exists m sds sd, unmarshal getMlsMessage raw = Ok (MPrivate m) /\ privm_groupID m = gc_groupID (gr_context g) /\ privm_epoch m = gc_epoch (gr_context g) /\
    deriveSecret (gc_cipherSuite (gr_context g)) (gr_epochSecret g) (str "sender data") = Ok sds /\
    decryptSenderData (gc_cipherSuite (gr_context g)) m sds = Ok sd /\ messageWork g raw <= sd_generation sd /\ sd_generation sd < 2 ^ 32.
Proof. exact @messageWork_le. Qed.
Print Assumptions C85_only_members_can_ask_for_steps_partial.

(** The steps counted are those that processing a message does. *)
Theorem C85_steps_of_an_opened_message_partial :
  forall (C : crypto) g raw m ac, unmarshal getMlsMessage raw = Ok (MPrivate m) -> openPrivateMessage g m = Ok ac ->
  exists sds sd, deriveSecret (gc_cipherSuite (gr_context g)) (gr_epochSecret g) (str "sender data") = Ok sds /\
    decryptSenderData (gc_cipherSuite (gr_context g)) m sds = Ok sd /\ messageWork g raw = sd_generation sd.
Proof. exact @opened_work. Qed.
Print Assumptions C85_steps_of_an_opened_message_partial.

Example C85_example : exists raw, @unmarshalAndProcessMessage toy ga raw clock = (ga, Ok (Some (str "hello"))) /\ @messageWork toy ga raw = 1000000.
Proof. destruct (work_example 1000000 clock eq_refl) as (raw & _ & H). exists raw. exact H. Qed.
