(** Members with the same epoch secret have the same view of the group: C78; those
    who join with one Welcome agree: C79.  What C46 leads to. *)
From Verif Require Import ViewSamples.

(** ** C78 *)
Theorem C78_same_epoch_secret_same_view :
  forall (C : crypto) g1 g2 j1 j2 k1 k2, crypto_ok C -> just_entered g1 -> just_entered g2 ->
  has_joiner g1 j1 -> has_joiner g2 j2 ->
  shaped k1 (gr_value g1) -> shaped k2 (gr_value g2) -> wf_nodes (gr_value g1) -> wf_nodes (gr_value g2) ->
  wf_groupContext (gr_context g1) -> wf_groupContext (gr_context g2) ->
  gr_epochSecret g1 = gr_epochSecret g2 ->
  (gr_context g1 = gr_context g2 /\ gr_value g1 = gr_value g2 /\ j1 = j2) \/ collide (epochQueries g1 j1 k1) (epochQueries g2 j2 k2).
Proof. exact @same_secret_same_view. Qed.
Print Assumptions C78_same_epoch_secret_same_view.

Theorem C78_there_is_a_joiner_secret : forall (C : crypto) g, just_entered g -> exists joiner, has_joiner g joiner.
Proof. exact @entered_with. Qed.
Print Assumptions C78_there_is_a_joiner_secret.

(** Members who accepted commits accepted the same one, in the same epoch: the
    theorem then applies to the epoch before. *)
Theorem C78_same_epoch_secret_same_past :
  forall (C : crypto) g1 raw1 now1 ac1 c1 g1' s1 g2 raw2 now2 ac2 c2 g2' s2, crypto_ok C ->
  obtained g1 -> accepts_commit g1 raw1 now1 ac1 c1 g1' -> has_commit_secret g1 g1' s1 ->
  obtained g2 -> accepts_commit g2 raw2 now2 ac2 c2 g2' -> has_commit_secret g2 g2' s2 ->
  wf_groupContext (gr_context g1') -> wf_groupContext (gr_context g2') -> gr_epochSecret g1' = gr_epochSecret g2' ->
  (untagged (entry ac1) = untagged (entry ac2) /\ s1 = s2 /\
   gr_epochSecret g1 = gr_epochSecret g2 /\ gr_interimTranscriptHash g1 = gr_interimTranscriptHash g2) \/
  collide (commitQueries g1 g1' s1 ac1) (commitQueries g2 g2' s2 ac2).
Proof. exact @same_secret_same_past. Qed.
Print Assumptions C78_same_epoch_secret_same_past.

Theorem C78_there_is_a_commit_secret :
  forall (C : crypto) g raw now ac c g', obtained g -> accepts_commit g raw now ac c g' -> exists commitSecret, has_commit_secret g g' commitSecret.
Proof. exact @committed_with. Qed.
Print Assumptions C78_there_is_a_commit_secret.

(** Alice and Carol accept a commit with a path. *)
Example C78_example :
  @just_entered toy qa' /\ @just_entered toy qc' /\ shaped 2 (gr_value qa') /\ wf_nodes (gr_value qa') /\ wf_groupContext (gr_context qa') /\
  gr_epochSecret qa' = gr_epochSecret qc' /\ gr_myLeafIndex qa' <> gr_myLeafIndex qc' /\
  (exists s, @has_commit_secret toy qa qa' s /\ @has_commit_secret toy qc qc' s) /\ gr_value qa' <> gr_value qa.
Proof. exact view_example. Qed.

(** ** C79 *)
(** Nothing is assumed of the sender, nor of the cryptography.  That a ciphertext
    opens with two keys is not excluded by what an AEAD promises. *)
Theorem C79_who_joins_with_one_welcome_agrees :
  forall (C : crypto) w kpp1 now1 g1 kpp2 now2 g2,
  groupFromWelcome w kpp1 now1 = Ok g1 -> groupFromWelcome w kpp2 now2 = Ok g2 ->
  (agree g1 g2 /\ gr_pending g1 = [] /\ gr_pending g2 = []) \/
  exists j1 j2, j1 <> j2 /\ lets_open w kpp1 j1 /\ lets_open w kpp2 j2.
Proof. exact @joiners_agree. Qed.
Print Assumptions C79_who_joins_with_one_welcome_agrees.

(** Bob and Carol join with the Welcome Alice made. *)
Example C79_example :
  @groupFromWelcome toy (fst (snd firstWelcome)) bob clock = Ok gb /\ @groupFromWelcome toy (fst (snd firstWelcome)) carol clock = Ok gc /\
  gr_myLeafIndex gb <> gr_myLeafIndex gc.
Proof. split; [exact gb_joined|split; [exact gc_joined|vm_compute; discriminate]]. Qed.

(** ** C46 *)
(** Two members who agree get the same commit with different confirmation tags.
    Both accept it, and do not agree any more. *)
Theorem C46_tags_split_the_group_refuted :
  exists (C : crypto) g m raw raw' now ac ac' c g' m',
    crypto_ok C /\ obtained g /\ obtained m /\ agree g m /\ gr_pending m = gr_pending g /\
    accepts_commit g raw now ac c g' /\ accepts_commit m raw' now ac' c m' /\ untagged (entry ac') = untagged (entry ac) /\
    gr_epochSecret m' = gr_epochSecret g' /\ gr_context m' = gr_context g' /\ gr_interimTranscriptHash m' <> gr_interimTranscriptHash g'.
Proof. exact tags_split. Qed.
Print Assumptions C46_tags_split_the_group_refuted.
