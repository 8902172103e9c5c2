(** The work for one message, and the size of the tree after it: C105. *)
From Verif Require Import MessageWorkSamples.

(** ** C105 *)
(** One is counted for every hash, MAC, step of key derivation, derived key
    pair, signature verification and decryption. *)
Theorem C105_the_count_is_of_the_same_function :
  forall (C : crypto) g raw now, fst (countMessage g raw now) = unmarshalAndProcessMessage g raw now.
Proof. exact @erase_message. Qed.
Print Assumptions C105_the_count_is_of_the_same_function.

(** Apart from the steps of the message ratchet, which the sender chooses (see
    C85), the work is linear in the sizes of the tree and of the message. *)
Theorem C105_work_is_linear :
  forall (C : crypto) g raw now, opens_no_longer C -> obtained g ->
  snd (countMessage g raw now) <= 5 * lenN (gr_tree g) + 9 * lenN raw + 124 + messageWork g raw.
Proof. exact @obtained_work. Qed.
Print Assumptions C105_work_is_linear.

(** The tree grows no further either. *)
Theorem C105_a_message_does_not_inflate_the_tree :
  forall (C : crypto) g raw now g' r, opens_no_longer C -> obtained g -> unmarshalAndProcessMessage g raw now = (g', r) ->
  lenN (gr_tree g') + 1 <= 2 * (lenN (gr_tree g) + 1) + 4 * lenN raw.
Proof. exact @obtained_growth. Qed.
Print Assumptions C105_a_message_does_not_inflate_the_tree.

(** A commit with an update path that Alice processes, and a message of Carol in
    the next epoch *)
Example C105_example :
  opens_no_longer toy /\ obtained (C := toy) ga /\
  @countMessage toy ga w55raw clock = ((aliceAfterPath, Ok None), 31) /\ lenN (gr_tree ga) = 7 /\ lenN w55raw = 478 /\
  @countMessage toy aliceAfterPath w103raw clock = ((aliceAfterPath, Ok (Some (str "hello"))), 16) /\ @messageWork toy aliceAfterPath w103raw = 0.
Proof.
  split; [exact toy_opens_no_longer|]. split; [exact ga_obtained|]. repeat (split; [vm_compute; reflexivity|]). vm_compute. reflexivity.
Qed.
