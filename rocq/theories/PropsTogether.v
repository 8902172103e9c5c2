(** Proposals committed together or one after the other: C118. *)
From Verif Require Import TogetherSamples.

(** ** C118 *)
(** The proposals of two lists, of which the first is applied before the second
    anyway, are applied together exactly if they can be applied one list after
    the other, and with the same tree as result. *)
Theorem C118_together_or_one_after_the_other :
  forall h t ps qs v, proper h t -> well_shaped (deref h t) -> in_turn ps qs ->
  (exists h' t', applyH h t (map fst (ps ++ qs)) (map snd (ps ++ qs)) = Ok (h', t') /\ deref h' t' = v) <->
  (exists h1 t1 h2 t2, applyH h t (map fst ps) (map snd ps) = Ok (h1, t1) /\
     applyH h1 t1 (map fst qs) (map snd qs) = Ok (h2, t2) /\ deref h2 t2 = v).
Proof. exact applied_together. Qed.
Print Assumptions C118_together_or_one_after_the_other.

(** So for two members in agreement of whom one accepts two commits, the first
    without update path, and the other one commit of all the proposals: the
    update path is merged into the same tree, and if it is the same path (or
    there is none) then the trees are the same. *)
Theorem C118_one_commit_or_two :
  forall (C : crypto) g m raw raw1 raw2 now now1 now2 ac ac1 ac2 c c1 c2 m' g1 g2 li li1 li2 rs ps qs, obtained g -> obtained m -> agree g m ->
  accepts_commit g raw1 now1 ac1 c1 g1 -> fc_sender (ac_content ac1) = SMember li1 -> commits g li1 c1 ps -> c_path c1 = None ->
  accepts_commit g1 raw2 now2 ac2 c2 g2 -> fc_sender (ac_content ac2) = SMember li2 -> commits g1 li2 c2 qs ->
  accepts_commit m raw now ac c m' -> fc_sender (ac_content ac) = SMember li -> commits m li c rs ->
  in_turn ps qs -> reordered rs (ps ++ qs) -> Forall (fun x => x < 2 ^ 31) (changedLeaves rs) ->
  (exists t, after_proposals (gr_value m) rs t /\ after_proposals (gr_value g1) qs t) /\
  (li = li2 -> c_path c = c_path c2 -> gr_value m' = gr_value g2).
Proof. exact @committed_together. Qed.
Print Assumptions C118_one_commit_or_two.

(** Who is added and then removed leaves no trace among the leaves. *)
Theorem C118_removing_undoes_adding :
  forall h t li k s s' r h1 t1 h2 t2, proper h t -> well_shaped (deref h t) -> leftmost_free (deref h t) li -> designated r = li ->
  applyH h t [PAdd k] [s] = Ok (h1, t1) -> applyH h1 t1 [PRemove r] [s'] = Ok (h2, t2) ->
  forall j, leaf_at (deref h2 t2) j = leaf_at (deref h t) j.
Proof. exact applied_and_undone. Qed.
Print Assumptions C118_removing_undoes_adding.

(** Carol adds Erin and Frank with one commit or with two; Alice gets the same
    tree.  With Erin removed again the members are as before, but the nodes above
    are now blank. *)
Example C118_example :
  @obtained toy ra /\
  (exists ac c, @accepts_commit toy ra commit118a clock ac c (snd w118a) /\ fc_sender (ac_content ac) = SMember 2 /\ commits ra 2 c [add erin] /\ c_path c = None) /\
  (exists ac c, @accepts_commit toy (snd w118a) commit118b clock ac c (snd w118b) /\ fc_sender (ac_content ac) = SMember 2 /\ commits (snd w118a) 2 c [add frank] /\ c_path c = None) /\
  (exists ac c, @accepts_commit toy ra commit118 clock ac c (snd w118) /\ fc_sender (ac_content ac) = SMember 2 /\ commits ra 2 c [add erin; add frank] /\ c_path c = None) /\
  in_turn [add erin] [add frank] /\ ~ in_turn [add erin] [(PRemove 1, 2)] /\ gr_value (snd w118) = gr_value (snd w118b) /\
  gc_epoch (gr_context (snd w118b)) = gc_epoch (gr_context (snd w118)) + 1 /\ lenN (gr_value (snd w118)) = 15 /\
  (exists p, nth_error (gr_value (snd w118)) 3 = Some (Some (NParent p)) /\ pn_unmergedLeaves p = [3]) /\
  leaf_at (gr_value (snd w118)) 3 = Some (kp_leafNode (kpp_public erin)) /\ leaf_at (gr_value (snd w118)) 4 = Some (kp_leafNode (kpp_public frank)) /\
  leftmost_free (gr_value ra) 3 /\
  exists h1 t1 h2 t2, applyH (gr_heap ra) (gr_tree ra) [PAdd (kpp_public erin)] [2] = Ok (h1, t1) /\ applyH h1 t1 [PRemove 3] [2] = Ok (h2, t2) /\
    lenN t2 = 7 /\ map (leaf_at (deref h2 t2)) [0; 1; 2; 3] = map (leaf_at (gr_value ra)) [0; 1; 2; 3] /\ deref h2 t2 <> gr_value ra.
Proof. exact together_example. Qed.
