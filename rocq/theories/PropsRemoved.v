(** What becomes of a member that a commit removes: C51; and what rejected
    messages change: C44. *)
From Verif Require Import RemovedSamples.

(** ** C51 *)
(** When the commit also removes its sender, under an index that designates the
    same leaf since 2 * index wraps around, the library panics instead of
    returning an error. *)
Theorem C51_removed_member_gets_an_error_refuted :
  exists (C : crypto) g raw now ac c li ps h t p,
  crypto_ok C /\ obtained g /\ carries g raw ac /\ fc_body (ac_content ac) = BCommit c /\ c_path c <> None /\
  fc_sender (ac_content ac) = SMember li /\ commits g li c ps /\
  applyH (gr_heap g) (gr_tree g) (map fst ps) (map snd ps) = Ok (h, t) /\ leaf_at (deref h t) (gr_myLeafIndex g) = None /\
  unmarshalAndProcessMessage g raw now = (g, Panic p).
Proof. exact removed_panics. Qed.
Print Assumptions C51_removed_member_gets_an_error_refuted.

(** A member whose leaf is blank after the proposals never accepts the commit,
    whatever its update path is. *)
Theorem C51_blank_member_never_accepts_partial :
  forall (C : crypto) g raw now ac c li ps h t, obtained g ->
  carries g raw ac -> fc_body (ac_content ac) = BCommit c -> fc_sender (ac_content ac) = SMember li -> commits g li c ps ->
  applyH (gr_heap g) (gr_tree g) (map fst ps) (map snd ps) = Ok (h, t) -> leaf_at (deref h t) (gr_myLeafIndex g) = None ->
  is_ok (snd (unmarshalAndProcessMessage g raw now)) = false.
Proof. exact @blank_not_accepted. Qed.
Print Assumptions C51_blank_member_never_accepts_partial.

(** The same, without the code that applies proposals: the commit has a Remove
    proposal for this member and adds nobody. *)
Theorem C51_removed_member_never_accepts_partial :
  forall (C : crypto) g raw now ac c li ps r s, obtained g ->
  carries g raw ac -> fc_body (ac_content ac) = BCommit c -> fc_sender (ac_content ac) = SMember li -> commits g li c ps ->
  In (PRemove r, s) ps -> designated r = gr_myLeafIndex g -> additionsOf ps = [] ->
  is_ok (snd (unmarshalAndProcessMessage g raw now)) = false.
Proof. exact @removed_not_accepted. Qed.
Print Assumptions C51_removed_member_never_accepts_partial.

(** Whoever accepts a commit is a member of the new epoch. *)
Theorem C51_who_follows_is_a_member_partial :
  forall (C : crypto) g raw now ac c g', obtained g -> accepts_commit g raw now ac c g' ->
  leaf_at (gr_value g') (gr_myLeafIndex g') <> None.
Proof. exact @accepts_still_member. Qed.
Print Assumptions C51_who_follows_is_a_member_partial.

(** If some member of the same epoch accepts the commit, then the removed
    member gets an error, and nothing but the unmerged leaves in the shared
    nodes has changed. *)
Theorem C51_removed_member_gets_an_error_partial :
  forall (C : crypto) g g2 raw now ac c li g2' ps h t, obtained g -> obtained g2 -> same_epoch g g2 -> gr_pending g2 = gr_pending g ->
  accepts_commit g2 raw now ac c g2' -> fc_sender (ac_content ac) = SMember li -> commits g li c ps ->
  applyH (gr_heap g) (gr_tree g) (map fst ps) (map snd ps) = Ok (h, t) -> leaf_at (deref h t) (gr_myLeafIndex g) = None ->
  exists e, unmarshalAndProcessMessage g raw now = (withHeap g h, Err e).
Proof. exact @removed_gets_error. Qed.
Print Assumptions C51_removed_member_gets_an_error_partial.

Example C51_example :
  exists ac c g', @obtained toy gc /\ @obtained toy ga /\ same_epoch gc ga /\ gr_pending ga = gr_pending gc /\
    @accepts_commit toy ga w51raw clock ac c g' /\ @carries toy gc w51raw ac /\ c_path c <> None /\ fc_sender (ac_content ac) = SMember 1 /\
    commits gc 1 c [(PRemove 2, 1)] /\ gr_myLeafIndex gc = 2 /\
    applyH (gr_heap gc) (gr_tree gc) [PRemove 2] [1] = Ok carolTree /\ leaf_at (deref (fst carolTree) (snd carolTree)) 2 = None /\
    snd (@unmarshalAndProcessMessage toy gc w51raw clock) = Err "mls: cannot find recipient ancestor"%string.
Proof. exact removed_example. Qed.

(** ** C44 *)
(** Only commits that add members, sent by members, can change anything when
    they are rejected. *)
Theorem C44_only_rejected_additions_change_anything_partial :
  forall (C : crypto) g raw now g' e, obtained g -> unmarshalAndProcessMessage g raw now = (g', Err e) ->
  same_state g g' \/
  exists ac c li ps k s, carries g raw ac /\ authentic g ac /\ fc_body (ac_content ac) = BCommit c /\ fc_sender (ac_content ac) = SMember li /\
    commits g li c ps /\ In (PAdd k, s) ps.
Proof. exact @only_additions_change. Qed.
Print Assumptions C44_only_rejected_additions_change_anything_partial.

(** Carol is removed, and rejects the commit. *)
Example C44_example_removed : @obtained toy gc /\ exists g' e, @unmarshalAndProcessMessage toy gc w51raw clock = (g', Err e) /\ same_state gc g'.
Proof. exact removed_unchanged. Qed.
