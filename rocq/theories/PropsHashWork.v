(** Checking a received tree takes little work: C89. *)
From Verif Require Import HashWorkFacts TypesSamples.

(** ** C89 *)
(** One is counted for every hash and for every leaf node that is verified. *)
Theorem C89_the_count_is_of_the_same_function :
  forall (C : crypto) t ctx now, fst (countIntegrity t ctx now) = verifyIntegrity t ctx now.
Proof. exact @erase_integrity. Qed.
Print Assumptions C89_the_count_is_of_the_same_function.

Theorem C89_checking_a_tree_takes_n_log_n_hashes :
  forall (C : crypto) raw t ctx now, unmarshal getRatchetTree raw = Ok t ->
  lenN t <= 2 * lenN raw /\ snd (countIntegrity t ctx now) <= (N.log2 (lenN t + 1) + 1) * (lenN t + 1).
Proof. exact @received_work. Qed.
Print Assumptions C89_checking_a_tree_takes_n_log_n_hashes.

(** Alice's tree of seven nodes, with two parent nodes: 19 hashes and three
    leaves. *)
Example C89_example :
  @countIntegrity toy (gr_value qa') (gr_context qa') clock = (Ok tt, 22) /\ lenN (gr_value qa') = 7 /\
  exists raw, putRatchetTree (gr_value qa') = Ok raw /\ unmarshal getRatchetTree raw = Ok (gr_value qa').
Proof. split; [vm_compute; reflexivity|]. split; [vm_compute; reflexivity|]. eexists. split; vm_compute; reflexivity. Qed.
