(** Who can follow an update path: C99. *)
From Verif Require Import ReadsSamples.

(** ** C99 *)
(** A member who accepts a commit with a path has found a secret in it as
    prescribed. *)
Theorem C99_a_member_who_accepts_reads_the_path :
  forall (C : crypto) g raw now ac c up li g', obtained g ->
  accepts_commit g raw now ac c g' -> c_path c = Some up -> fc_sender (ac_content ac) = SMember li ->
  exists z, can_read g g g' li up z.
Proof. exact @path_read. Qed.
Print Assumptions C99_a_member_who_accepts_reads_the_path.

(** If a member accepts it, another one who agrees does exactly if they can read
    it too, or else the path leads the two to different secrets with the same
    public key. *)
Theorem C99_another_member_accepts_exactly_if_they_read_the_path :
  forall (C : crypto) g m raw now now' ac c up li g', obtained g -> obtained m -> agree g m -> gr_pending m = gr_pending g ->
  accepts_commit g raw now ac c g' -> c_path c = Some up -> fc_sender (ac_content ac) = SMember li ->
  (is_ok (snd (unmarshalAndProcessMessage m raw now')) = true <-> exists z, can_read g m g' li up z) \/ keys_collide g m c g'.
Proof. exact @path_followed. Qed.
Print Assumptions C99_another_member_accepts_exactly_if_they_read_the_path.

Example C99_example :
  @obtained toy qa /\ @obtained toy qc /\ agree qa qc /\ gr_pending qc = gr_pending qa /\
  (exists ac c g' up, @accepts_commit toy qa w50raw clock ac c g' /\ c_path c = Some up /\ fc_sender (ac_content ac) = SMember 1 /\
     (exists z, @can_read toy qa qc g' 1 up z) /\ snd (@unmarshalAndProcessMessage toy qc w50raw clock) = Ok None) /\
  (exists ac c g' up, @accepts_commit toy qa half50raw clock ac c g' /\ c_path c = Some up /\ fc_sender (ac_content ac) = SMember 1 /\
     (exists z, @can_read toy qa qa g' 1 up z) /\ (forall z, ~ @can_read toy qa qc g' 1 up z) /\
     snd (@unmarshalAndProcessMessage toy qc half50raw clock) = Err "HPKE decryption failed").
Proof. exact reads_example. Qed.
