(** What receivers are told of the sender: C124. *)
From Verif Require Import AnonSamples.

(** ** C124 *)
(** Members who say the same cannot be told apart. *)
Theorem C124_receivers_learn_who_sent_a_message_refuted :
  forall (C : crypto) a b g data ra rga rb rgb ma mb now, crypto_ok C -> obtained a -> obtained b -> can_sign a -> can_sign b ->
  same_epoch a g -> same_epoch b g -> lenN rga = 4 -> lenN rgb = 4 ->
  createApplicationMessage a data ra rga = Ok ma -> createApplicationMessage b data rb rgb = Ok mb ->
  unmarshalAndProcessMessage g ma now = unmarshalAndProcessMessage g mb now.
Proof. exact @senders_not_told. Qed.
Print Assumptions C124_receivers_learn_who_sent_a_message_refuted.

(** A member's own message that is sent back to it is delivered like any other. *)
Theorem C124_own_messages_do_not_come_back_refuted :
  forall (C : crypto) g data rs rg m now, crypto_ok C -> obtained g -> can_sign g -> lenN rg = 4 ->
  createApplicationMessage g data rs rg = Ok m -> unmarshalAndProcessMessage g m now = (g, Ok (Some data)).
Proof. exact @own_messages_come_back. Qed.
Print Assumptions C124_own_messages_do_not_come_back_refuted.

(** Missing: that the caller is told the sender. What holds is that the message
    itself names the sender, and that the signature is checked with the key of
    that member. *)
Theorem C124_messages_name_their_senders_partial :
  forall (C : crypto) a g data ra rga ma, crypto_ok C -> obtained a -> can_sign a -> same_epoch a g -> lenN rga = 4 ->
  createApplicationMessage a data ra rga = Ok ma ->
  exists ac, carries g ma ac /\ authentic g ac /\ fc_sender (ac_content ac) = SMember (gr_myLeafIndex a) /\ fc_body (ac_content ac) = BApplication data.
Proof. exact @senders_named. Qed.
Print Assumptions C124_messages_name_their_senders_partial.

Example C124_example : @obtained toy ga /\ @obtained toy gb /\ @can_sign toy ga /\ @can_sign toy gb /\ same_epoch ga gc /\ same_epoch gb gc /\
  gr_myLeafIndex ga <> gr_myLeafIndex gb /\
  @createApplicationMessage toy ga (str "yes") [] (str "abcd") = Ok yesA /\ @createApplicationMessage toy gb (str "yes") [] (str "efgh") = Ok yesB /\
  @unmarshalAndProcessMessage toy gc yesA clock = (gc, Ok (Some (str "yes"))) /\ @unmarshalAndProcessMessage toy gb yesB clock = (gb, Ok (Some (str "yes"))).
Proof. exact anon_example. Qed.
