(** Messages of ended epochs: C107. *)
From Verif Require Import OnceFacts Witness.

(** ** C107 *)
(** A message that a member would accept now is rejected for ever once a commit
    is accepted (until the number of the epoch overflows). *)
Theorem C107_what_is_accepted_now_is_rejected_in_later_epochs :
  forall (C : crypto) l g n raw now g1 d now', u64 (gc_epoch (gr_context g)) ->
  unmarshalAndProcessMessage g raw now = (g1, Ok d) -> commits_accepted g l n -> 0 < n -> n < 2 ^ 64 ->
  exists err, unmarshalAndProcessMessage (after g l) raw now' = (after g l, Err err).
Proof. exact @rejected_ever_after. Qed.
Print Assumptions C107_what_is_accepted_now_is_rejected_in_later_epochs.

Theorem C107_a_commit_is_accepted_once :
  forall (C : crypto) l g n raw now ac c g' now', u64 (gc_epoch (gr_context g)) ->
  accepts_commit g raw now ac c g' -> commits_accepted g' l n -> n + 1 < 2 ^ 64 ->
  exists err, unmarshalAndProcessMessage (after g' l) raw now' = (after g' l, Err err).
Proof. exact @commits_once. Qed.
Print Assumptions C107_a_commit_is_accepted_once.

(** Bob's message of the first epoch, after Bob's commit *)
Example C107_example :
  u64 (gc_epoch (gr_context ga)) /\ @unmarshalAndProcessMessage toy ga w35raw clock = (ga, Ok (Some (str "hello"))) /\
  @commits_accepted toy ga [(w46raw, clock)] 1 /\ @after toy ga [(w46raw, clock)] = snd w46 /\
  @unmarshalAndProcessMessage toy (snd w46) w35raw clock = (snd w46, Err "mls: epoch mismatch") /\
  @unmarshalAndProcessMessage toy (snd w46) w46raw clock = (snd w46, Err "mls: epoch mismatch").
Proof.
  split; [vm_compute; reflexivity|]. split; [vm_compute; reflexivity|]. split.
  - apply (@ca_commit toy ga w46raw clock [] 0 (publicContent (fst (fst w46))) (snd (fst w46)) (snd w46)); [|constructor].
    apply acceptedPublic_commit. rewrite w46_accepted. now destruct w46 as [[? ?] ?].
  - split; [vm_compute; reflexivity|]. split; vm_compute; reflexivity.
Qed.
