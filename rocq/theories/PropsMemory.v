(** The memory that decoding takes: C84. *)
From Verif Require Import MemoryFacts Samples.

(** ** C84: false of the code; readOpaqueVec makes a buffer of the announced
    length before it looks whether so many bytes are there (mls.go:60).  The
    second message is accepted as a key package. *)
Theorem C84_memory_beyond_the_input_refuted :
  (exists raw, lenN raw = 8 /\ taken memMlsMessage raw = 2^30 - 1) /\
  (exists raw k, lenN raw = 159 /\ unmarshalKeyPackage raw = Ok k /\ 2^30 - 1 <= taken memMlsMessage raw).
Proof.
  split; [exists [x00; x01; x00; x02; xbf; xff; xff; xff]; vm_compute; split; reflexivity|].
  exists (match keyPackageBytes sampleKP with Ok b => firstn (length b - 4) b ++ [xbf; xff; xff; xff] | _ => [] end).
  eexists. split; [vm_compute; reflexivity|]. split; [vm_compute; reflexivity|vm_compute; discriminate].
Qed.
Print Assumptions C84_memory_beyond_the_input_refuted.

(** What holds: a factor of 2^30 - 1 for every input.  An accepted message takes
    no more than its length, unless it is or contains a key package or group
    information without a signature.  Missing for the full property: messages
    that are rejected, and accepted ones with such an empty signature. *)
Theorem C84_the_count_is_of_the_same_decoder :
  forall raw, fst (memMlsMessage raw) = getMlsMessage raw.
Proof. exact counts_message. Qed.
Print Assumptions C84_the_count_is_of_the_same_decoder.

Theorem C84_all_messages_partial : forall raw, taken memMlsMessage raw <= (2^30 - 1) * lenN raw.
Proof. exact message_memory. Qed.
Print Assumptions C84_all_messages_partial.

Theorem C84_accepted_messages_partial :
  forall raw m, unmarshal getMlsMessage raw = Ok m -> signed_message m -> taken memMlsMessage raw <= lenN raw.
Proof. exact accepted_memory. Qed.
Print Assumptions C84_accepted_messages_partial.

Theorem C84_accepted_trees_partial :
  forall raw t, fst (memRatchetTree raw) = getRatchetTree raw /\
  (unmarshal getRatchetTree raw = Ok t -> taken memRatchetTree raw <= 2 * lenN raw /\ lenN t <= 2 * lenN raw).
Proof. exact (fun raw t => conj (counts_tree raw) (tree_memory raw t)). Qed.
Print Assumptions C84_accepted_trees_partial.

Theorem C84_group_secrets_partial :
  forall raw, fst (memGroupSecrets raw) = getGroupSecrets raw /\ taken memGroupSecrets raw <= lenN raw + (2^30 - 1) /\
  (forall x, unmarshal getGroupSecrets raw = Ok x -> taken memGroupSecrets raw <= lenN raw).
Proof. exact (fun raw => conj (counts_secrets raw) (secrets_memory raw)). Qed.
Print Assumptions C84_group_secrets_partial.

Example C84_example :
  exists raw, putMlsMessage (MKeyPackage sampleKP) = Ok raw /\ unmarshal getMlsMessage raw = Ok (MKeyPackage sampleKP) /\
    signed_message (MKeyPackage sampleKP) /\ lenN raw = 159 /\ taken memMlsMessage raw = 113.
Proof.
  eexists. split; [vm_compute; reflexivity|]. split; [vm_compute; reflexivity|]. split; [discriminate|].
  split; vm_compute; reflexivity.
Qed.
