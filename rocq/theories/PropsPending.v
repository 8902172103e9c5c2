(** The use of pending proposals: C101. *)
From Verif Require Import PendingSamples.

(** ** C101 *)
(** A member's answer, and their next state, do not change if their list of
    pending proposals is another that agrees about what the commit refers to. *)
Theorem C101_only_the_proposals_referred_to_matter :
  forall (C : crypto) g P raw now g1 r1 g2 r2,
  (forall ac c, carries g raw ac -> fc_body (ac_content ac) = BCommit c -> same_references c (gr_pending g) P) ->
  unmarshalAndProcessMessage g raw now = (g1, r1) -> unmarshalAndProcessMessage (withPending g P) raw now = (g2, r2) ->
  r2 = r1 /\ same_but_pending g1 g2 /\
  ((exists ac c, accepts_commit g raw now ac c g1) /\ g2 = g1 \/
   exists l, gr_pending g1 = gr_pending g ++ l /\ gr_pending g2 = P ++ l).
Proof. exact @message_pending. Qed.
Print Assumptions C101_only_the_proposals_referred_to_matter.

(** Lists that agree: with other proposals in between, with proposals received
    again, and in another order *)
Theorem C101_other_proposals_do_not_matter :
  forall c P R Q, (forall pp, In pp R -> ~ In (PorReference (pp_ref pp)) (c_proposals c)) -> same_references c (P ++ Q) (P ++ R ++ Q).
Proof. exact other_references. Qed.
Print Assumptions C101_other_proposals_do_not_matter.
Theorem C101_repeated_proposals_do_not_matter :
  forall c P R, (forall pp, In pp R -> In (pp_ref pp) (map pp_ref P)) -> same_references c P (P ++ R).
Proof. exact repeated_references. Qed.
Print Assumptions C101_repeated_proposals_do_not_matter.
Theorem C101_the_order_of_arrival_does_not_matter :
  forall c P Q, Permutation.Permutation P Q -> NoDup (map pp_ref P) -> same_references c P Q.
Proof. exact reordered_references. Qed.
Print Assumptions C101_the_order_of_arrival_does_not_matter.

(** Members in agreement who remember different proposals give the same answer
    to a commit without a path if they agree about what it refers to, and to
    anything but a commit. *)
Theorem C101_members_respond_alike :
  forall (C : crypto) g m raw now now', obtained g -> obtained m -> agree g m ->
  (forall ac c, carries g raw ac -> fc_body (ac_content ac) = BCommit c -> c_path c = None /\ same_references c (gr_pending g) (gr_pending m)) ->
  snd (unmarshalAndProcessMessage m raw now') = snd (unmarshalAndProcessMessage g raw now).
Proof. exact @members_pending. Qed.
Print Assumptions C101_members_respond_alike.

(** Invitations do not depend on pending proposals at all. *)
Theorem C101_invitations_do_not_depend_on_pending_proposals :
  forall (C : crypto) g P kps rs ri rh rg, snd (createWelcome (withPending g P) kps rs ri rh rg) = snd (createWelcome g kps rs ri rh rg).
Proof. exact @welcome_pending. Qed.
Print Assumptions C101_invitations_do_not_depend_on_pending_proposals.

Example C101_example :
  (forall ac c, @carries toy qa1 commit81 ac -> fc_body (ac_content ac) = BCommit c -> same_references c (gr_pending qa1) twice) /\
  (exists ac, @carries toy qa1 commit81 ac /\ fc_body (ac_content ac) = BCommit c81) /\
  gr_pending qa1 <> twice /\ c_proposals c81 = [PorReference (pp_ref pp81)] /\
  @unmarshalAndProcessMessage toy qa1 commit81 clock = (snd w81, Ok None) /\
  @unmarshalAndProcessMessage toy (withPending qa1 twice) commit81 clock = (snd w81, Ok None) /\
  @unmarshalAndProcessMessage toy (withPending qa1 []) commit81 clock = (withPending qa1 [], Err "mls: cannot find proposal reference").
Proof. exact pending_example. Qed.

Example C101_example_of_two_members :
  @obtained toy qa2 /\ @obtained toy qc2 /\ agree qa2 qc2 /\ gr_pending qa2 <> gr_pending qc2 /\
  (forall ac c, @carries toy qa2 commit101 ac -> fc_body (ac_content ac) = BCommit c -> c_path c = None /\ same_references c (gr_pending qa2) (gr_pending qc2)) /\
  snd (@unmarshalAndProcessMessage toy qa2 commit101 clock) = Ok None /\ snd (@unmarshalAndProcessMessage toy qc2 commit101 clock) = Ok None /\
  gr_value (fst (@unmarshalAndProcessMessage toy qa2 commit101 clock)) <> gr_value qa2.
Proof. exact members_example. Qed.
