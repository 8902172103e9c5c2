(** The work for creating, joining, inviting and sending: C106. *)
From Verif Require Import JoinWorkFacts MessageWorkSamples JoinSamples.

(** ** C106 *)
(** One is counted for every hash, MAC, step of key derivation, derived key
    pair, signature, signature verification, encryption and decryption. *)
Theorem C106_the_counts_are_of_the_same_functions :
  (forall (C : crypto) gid kpp rnd, fst (countCreate gid kpp rnd) = createGroup gid kpp rnd) /\
  (forall (C : crypto) w kpp now, fst (countJoin w kpp now) = groupFromWelcome w kpp now) /\
  (forall (C : crypto) g data rnd guard, fst (countSend g data rnd guard) = createApplicationMessage g data rnd guard) /\
  (forall (C : crypto) g kps r1 r2 rs guard, fst (countInvite g kps r1 r2 rs guard) = createWelcome g kps r1 r2 rs guard).
Proof. exact all_erased. Qed.
Print Assumptions C106_the_counts_are_of_the_same_functions.

Theorem C106_creating_takes_five_operations :
  forall (C : crypto) gid kpp rnd, snd (countCreate gid kpp rnd) <= 5.
Proof. exact @create_work. Qed.
Print Assumptions C106_creating_takes_five_operations.

(** Whatever the bytes of a Welcome are, the work grows with their number [n]
    like [n log n]. *)
Theorem C106_joining_takes_n_log_n_operations :
  forall (C : crypto) raw w kpp now, opens_no_longer C -> unmarshalWelcome raw = Ok w ->
  snd (countJoin w kpp now) <= (N.log2 (2 * lenN raw + 1) + 1) * (2 * lenN raw + 1) + 120.
Proof. exact @join_raw_work. Qed.
Print Assumptions C106_joining_takes_n_log_n_operations.

Theorem C106_a_welcome_does_not_inflate_the_tree :
  forall (C : crypto) raw w kpp now g, opens_no_longer C -> unmarshalWelcome raw = Ok w -> groupFromWelcome w kpp now = Ok g ->
  lenN (gr_tree g) <= 2 * lenN raw.
Proof. exact @joined_size. Qed.
Print Assumptions C106_a_welcome_does_not_inflate_the_tree.

Theorem C106_sending_is_linear_in_the_tree :
  forall (C : crypto) g data rnd guard, obtained g -> snd (countSend g data rnd guard) <= lenN (gr_tree g) + 10.
Proof. exact @send_work. Qed.
Print Assumptions C106_sending_is_linear_in_the_tree.

Theorem C106_inviting_is_linear_in_the_tree :
  forall (C : crypto) g kps r1 r2 rs guard, obtained g ->
  snd (countInvite g kps r1 r2 rs guard) <= 3 * lenN (gr_tree g) + 6 * lenN kps + 24.
Proof. exact @invite_work. Qed.
Print Assumptions C106_inviting_is_linear_in_the_tree.

(** Alice creates a group and invites Bob and Carol; Bob joins; Alice sends to
    them. *)
Example C106_example :
  opens_no_longer toy /\ @countCreate toy (str "grp") alice (zeros 32) = (Ok g0, 5) /\
  @countInvite toy g0 [kpp_public bob; kpp_public carol] [] [] [str "x"; str "y"] (str "abcd") = ((fst firstWelcome, Ok (snd firstWelcome)), 34) /\
  (exists raw, welcomeBytes (fst (snd firstWelcome)) = Ok raw /\ unmarshalWelcome raw = Ok (fst (snd firstWelcome))) /\
  @countJoin toy (fst (snd firstWelcome)) bob clock = (Ok gb, 26) /\
  @obtained toy ga /\ lenN (gr_tree ga) = 7 /\ snd (@countSend toy ga (str "hello") [] (str "abcd")) = 16.
Proof.
  split; [exact toy_opens_no_longer|]. split; [vm_compute; reflexivity|]. split; [vm_compute; reflexivity|].
  split; [eexists; split; vm_compute; reflexivity|]. split; [vm_compute; reflexivity|]. split; [exact ga_obtained|]. split; vm_compute; reflexivity.
Qed.
