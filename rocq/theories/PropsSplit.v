(** Members who accept the same messages agree: C77. *)
From Verif Require Import SplitSamples.

(** ** C77 *)
(** Nothing is assumed of the sender, nor of the cryptography: the commit may be
    made by anyone.  [keys_collide] has the two secrets whose keys are the same. *)
Theorem C77_who_accepts_a_commit_agrees :
  forall (C : crypto) g m raw now now' ac ac' c c' g' m', obtained g -> obtained m -> agree g m -> gr_pending m = gr_pending g ->
  accepts_commit g raw now ac c g' -> accepts_commit m raw now' ac' c' m' ->
  ac' = ac /\ c' = c /\ gr_pending m' = gr_pending g' /\
  gr_context m' = gr_context g' /\ gr_value m' = gr_value g' /\ gr_interimTranscriptHash m' = gr_interimTranscriptHash g' /\ gr_pskSecret m' = gr_pskSecret g' /\
  (agree g' m' \/ keys_collide g m c g').
Proof. exact @same_commit_agree. Qed.
Print Assumptions C77_who_accepts_a_commit_agrees.

Theorem C77_who_accepts_a_message_agrees :
  forall (C : crypto) g m raw now now' d d' g' m', obtained g -> obtained m -> agree g m -> gr_pending m = gr_pending g ->
  unmarshalAndProcessMessage g raw now = (g', Ok d) -> unmarshalAndProcessMessage m raw now' = (m', Ok d') ->
  d' = d /\ gr_pending m' = gr_pending g' /\ gr_context m' = gr_context g' /\ gr_value m' = gr_value g' /\
  (agree g' m' \/ exists ac c, accepts_commit g raw now ac c g' /\ accepts_commit m raw now' ac c m' /\ keys_collide g m c g').
Proof. exact @same_message_agree. Qed.
Print Assumptions C77_who_accepts_a_message_agrees.

Theorem C77_who_accepts_the_same_messages_agrees :
  forall (C : crypto) g m raws g' m', obtained g -> obtained m -> agree g m -> gr_pending m = gr_pending g -> both_accept g m raws g' m' ->
  (agree g' m' /\ gr_pending m' = gr_pending g') \/
  exists before raw after g1 m1 now now' ac c g2 m2, raws = before ++ raw :: after /\ both_accept g m before g1 m1 /\ agree g1 m1 /\
    accepts_commit g1 raw now ac c g2 /\ accepts_commit m1 raw now' ac c m2 /\ keys_collide g1 m1 c g2.
Proof. exact @same_messages_agree. Qed.
Print Assumptions C77_who_accepts_the_same_messages_agrees.

(** Bob removes Dave with a path of two nodes, and Alice and Carol accept it. *)
Example C77_example :
  @obtained toy qa /\ @obtained toy qc /\ agree qa qc /\ gr_pending qc = gr_pending qa /\ @both_accept toy qa qc [w50raw] qa' qc' /\
  (exists ac c up, @accepts_commit toy qa w50raw clock ac c qa' /\ c_path c = Some up /\ lenN (up_nodes up) = 2) /\
  gr_myLeafIndex qa' <> gr_myLeafIndex qc' /\ gr_epochSecret qa' <> gr_epochSecret qa.
Proof. exact split_example. Qed.
