(** Concrete commits that remove a member. *)
From Verif Require Export RemovedFacts CauseFacts KeySamples.

(** *** Bob removes Carol with an update path: Alice follows. *)
Definition w51raw : bytes := Eval vm_compute in
  getOr [] (@sendPathCommit toy gb 1 [PorProposal (PRemove 2)] [] (pad 32 (str "new leaf")) [] (pad 32 (str "seed")) (str "r")).
Definition w51 := Eval vm_compute in getSome (noMessage, noCommit, noGroup) (acceptedPublic ga w51raw).
Lemma w51_accepted : acceptedPublic ga w51raw = Some w51.
Proof. vm_compute. reflexivity. Qed.
Definition carolTree := Eval vm_compute in getOr ([], []) (applyH (gr_heap gc) (gr_tree gc) [PRemove 2] [1]).

Lemma removed_example :
  exists ac c g', @obtained toy gc /\ @obtained toy ga /\ same_epoch gc ga /\ gr_pending ga = gr_pending gc /\
    @accepts_commit toy ga w51raw clock ac c g' /\ @carries toy gc w51raw ac /\ c_path c <> None /\ fc_sender (ac_content ac) = SMember 1 /\
    commits gc 1 c [(PRemove 2, 1)] /\ gr_myLeafIndex gc = 2 /\
    applyH (gr_heap gc) (gr_tree gc) [PRemove 2] [1] = Ok carolTree /\ leaf_at (deref (fst carolTree) (snd carolTree)) 2 = None /\
    snd (@unmarshalAndProcessMessage toy gc w51raw clock) = Err "mls: cannot find recipient ancestor"%string.
Proof.
  exists (publicContent (fst (fst w51))), (snd (fst w51)), (snd w51). splits.
  - exact gc_obtained.
  - exact ga_obtained.
  - repeat split; vm_compute; reflexivity.
  - reflexivity.
  - apply acceptedPublic_commit. rewrite w51_accepted. now destruct w51 as [[? ?] ?].
  - apply carries_public. vm_compute. reflexivity.
  - vm_compute. discriminate.
  - reflexivity.
  - apply (proj1 (resolveProposals_spec _ _ _ _)). vm_compute. reflexivity.
  - reflexivity.
  - vm_compute. reflexivity.
  - vm_compute. reflexivity.
  - vm_compute. reflexivity.
Qed.

Definition carolAfter : group := Eval vm_compute in hear gc w51raw.
Lemma removed_unchanged : @obtained toy gc /\ exists g' e, @unmarshalAndProcessMessage toy gc w51raw clock = (g', Err e) /\ same_state gc g'.
Proof.
  split; [exact gc_obtained|]. exists carolAfter, "mls: cannot find recipient ancestor"%string. split; [vm_compute; reflexivity|].
  unfold same_state, agree. splits; vm_compute; reflexivity.
Qed.

(** *** Bob removes Carol, and themselves under the leaf index 2^31 + 1. *)
Definition leaf51 : leafNode := Eval vm_compute in
  match c_path (snd (fst w51)) with Some up => up_leafNode up | None => kp_leafNode (kpp_public bob) end.
Definition w51panic : bytes := Eval vm_compute in
  getOr [] (@sendPublic toy gb 1 (BCommit (mkCommit [PorProposal (PRemove 2); PorProposal (PRemove (2 ^ 31 + 1))] (Some (mkUpdatePath leaf51 [])))) [] (str "tag")).
Definition ac51 : authenticatedContent := Eval vm_compute in
  match unmarshal getMlsMessage w51panic with Ok (MPublic m) => publicContent m | _ => publicContent noMessage end.
Definition c51 : commit := Eval vm_compute in match fc_body (ac_content ac51) with BCommit c => c | _ => noCommit end.
Definition carolTree2 := Eval vm_compute in getOr ([], []) (applyH (gr_heap gc) (gr_tree gc) [PRemove 2; PRemove (2 ^ 31 + 1)] [1; 1]).

Lemma removed_panics : exists (C : crypto) g raw now ac c li ps h t p,
  crypto_ok C /\ obtained g /\ carries g raw ac /\ fc_body (ac_content ac) = BCommit c /\ c_path c <> None /\
  fc_sender (ac_content ac) = SMember li /\ commits g li c ps /\
  applyH (gr_heap g) (gr_tree g) (map fst ps) (map snd ps) = Ok (h, t) /\ leaf_at (deref h t) (gr_myLeafIndex g) = None /\
  unmarshalAndProcessMessage g raw now = (g, Panic p).
Proof.
  exists toy, gc, w51panic, clock, ac51, c51, 1, [(PRemove 2, 1); (PRemove (2 ^ 31 + 1), 1)], (fst carolTree2), (snd carolTree2), "index out of range"%string. splits.
  - exact toy_ok.
  - exact gc_obtained.
  - change ac51 with (mkAuthenticatedContent 1 (ac_content ac51) (ac_auth ac51)).
    apply (carries_public _ _ (match unmarshal getMlsMessage w51panic with Ok (MPublic m) => m | _ => noMessage end)). vm_compute. reflexivity.
  - reflexivity.
  - vm_compute. discriminate.
  - reflexivity.
  - apply (proj1 (resolveProposals_spec _ _ _ _)). vm_compute. reflexivity.
  - vm_compute. reflexivity.
  - vm_compute. reflexivity.
  - vm_compute. reflexivity.
Qed.
