(** What the clock and the member do not change: C97 and C98. *)
From Verif Require Import AlikeSamples.

(** ** C97 *)
Theorem C97_messages_do_not_depend_on_the_clock :
  forall (C : crypto) g raw now now', unmarshalAndProcessMessage g raw now = unmarshalAndProcessMessage g raw now'.
Proof. exact @message_clock. Qed.
Print Assumptions C97_messages_do_not_depend_on_the_clock.

(** Who can join at one time can join at any other at which the lifetimes of all
    members are current, and gets the same group; at no other. *)
Theorem C97_joining_depends_on_the_clock_for_lifetimes_only :
  forall (C : crypto) w kpp now now' g, groupFromWelcome w kpp now = Ok g -> later_than_1970 now' ->
  ((forall li l, leaf_at (gr_value g) li = Some l -> current_leaf now' l) /\ groupFromWelcome w kpp now' = Ok g) \/
  ((exists li l, leaf_at (gr_value g) li = Some l /\ ~ current_leaf now' l) /\
     groupFromWelcome w kpp now' = Err "mls: lifetime verification failed").
Proof. exact @joins_alike. Qed.
Print Assumptions C97_joining_depends_on_the_clock_for_lifetimes_only.

Example C97_example :
  @unmarshalAndProcessMessage toy qa w50raw clock = (qa', Ok None) /\ @unmarshalAndProcessMessage toy qa w50raw late = (qa', Ok None) /\
  @groupFromWelcome toy (fst (snd firstWelcome)) bob clock = Ok gb /\
  @groupFromWelcome toy (fst (snd firstWelcome)) bob late = Err "mls: lifetime verification failed" /\ later_than_1970 late.
Proof. exact clock_example. Qed.

(** ** C98 *)
(** Members in agreement give the same answer to any bytes, be it data, an
    acceptance, an error or a crash, unless the bytes are a commit with a path. *)
Theorem C98_members_respond_alike :
  forall (C : crypto) g m raw now now', obtained g -> obtained m -> agree g m -> gr_pending m = gr_pending g ->
  (forall ac c, carries g raw ac -> fc_body (ac_content ac) = BCommit c -> c_path c = None) ->
  snd (unmarshalAndProcessMessage m raw now') = snd (unmarshalAndProcessMessage g raw now).
Proof. exact @responds_alike. Qed.
Print Assumptions C98_members_respond_alike.

Theorem C98_members_accept_alike :
  forall (C : crypto) g m raw now now' d g' m' r, obtained g -> obtained m -> agree g m -> gr_pending m = gr_pending g ->
  (forall ac c, carries g raw ac -> fc_body (ac_content ac) = BCommit c -> c_path c = None) ->
  unmarshalAndProcessMessage g raw now = (g', Ok d) -> unmarshalAndProcessMessage m raw now' = (m', r) ->
  r = Ok d /\ agree g' m' /\ gr_pending m' = gr_pending g'.
Proof. exact @alike_after. Qed.
Print Assumptions C98_members_accept_alike.

Example C98_example :
  @obtained toy ga /\ @obtained toy gc /\ agree ga gc /\ gr_pending gc = gr_pending ga /\ gr_myLeafIndex ga <> gr_myLeafIndex gc /\
  (forall ac c, @carries toy ga addsDave ac -> fc_body (ac_content ac) = BCommit c -> c_path c = None) /\
  @unmarshalAndProcessMessage toy ga addsDave clock = (qa, Ok None) /\ @unmarshalAndProcessMessage toy gc addsDave late = (qc, Ok None) /\
  gr_value qa <> gr_value ga /\
  @unmarshalAndProcessMessage toy qa addsDave clock = (qa, Err "mls: epoch mismatch") /\
  @unmarshalAndProcessMessage toy qc addsDave clock = (qc, Err "mls: epoch mismatch").
Proof. exact alike_example. Qed.
