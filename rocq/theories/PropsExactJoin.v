(** A Welcome is accepted exactly if it is a valid one: C113. *)
From Verif Require Import ExactJoinSamples.

(** [admits] says what the Welcome has to contain; [ordinary] limits sizes. *)
Theorem C113_welcomes_accepted_exactly :
  forall (C : crypto) w kpp now ctx t me, crypto_ok C -> later_than_1970 now -> ordinary w kpp ->
  (exists g, groupFromWelcome w kpp now = Ok g /\ gr_value g = t /\ gr_context g = ctx /\ gr_myLeafIndex g = me) <->
  (exists s gi k, admits w kpp s gi k t me now /\ ctx = gi_groupContext gi).
Proof. exact @welcomes_accepted_iff. Qed.
Print Assumptions C113_welcomes_accepted_exactly.

(** Dave's Welcome with a path secret: Dave can join with it, Alice cannot. *)
Example C113_example :
  crypto_ok toy /\ later_than_1970 clock /\ @ordinary toy w75 dave /\
  (exists s gi k, @admits toy w75 dave s gi k t52c' 1 clock /\ gs_pathSecret s <> None) /\
  forall s gi k t me, ~ @admits toy w75 alice s gi k t me clock.
Proof. exact exact_join_example. Qed.
