(** Proposals that are received again: C108. *)
From Verif Require Import ReplayFacts Witness.

(** ** C108 *)
(** Every proposal that is accepted is accepted again, as often as it is
    replayed, and takes up memory each time. *)
Theorem C108_replayed_proposals_pile_up_refuted :
  forall (C : crypto) g raw now ac p g' r,
  carries g raw ac -> fc_body (ac_content ac) = BProposal p -> unmarshalAndProcessMessage g raw now = (g', Ok r) ->
  exists pp, pp_proposal pp = p /\ forall n, after g (repeat (raw, now) n) = withPending g (gr_pending g ++ repeat pp n).
Proof. exact @replays_pile_up. Qed.
Print Assumptions C108_replayed_proposals_pile_up_refuted.

(** What holds is that a message adds one proposal at most.  That replayed
    proposals do not change the effect of a commit is part of C101. *)
Theorem C108_a_message_adds_one_proposal_at_most_partial :
  forall (C : crypto) l g, lenN (gr_pending (after g l)) <= lenN (gr_pending g) + lenN l.
Proof. exact @pending_slow. Qed.
Print Assumptions C108_a_message_adds_one_proposal_at_most_partial.

(** Carol's update, received a hundred times *)
Example C108_example :
  (exists ac g', @carries toy ga w27update ac /\ fc_body (ac_content ac) = BProposal (PUpdate (kp_leafNode (kpp_public dave))) /\
     @unmarshalAndProcessMessage toy ga w27update clock = (g', Ok None)) /\
  gr_pending ga = [] /\ lenN (gr_pending (@after toy ga (repeat (w27update, clock) 100))) = 100.
Proof.
  split; [|split; vm_compute; reflexivity]. eexists. eexists. split; [eapply carries_public; vm_compute; reflexivity|]. split; [vm_compute; reflexivity|vm_compute; reflexivity].
Qed.
