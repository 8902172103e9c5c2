(** Bob removes the leaf after the last member. *)
From Verif Require Export BlankFacts ExactFacts AcceptSamples.

Definition w111raw : bytes := Eval vm_compute in
  getOr [] (@sendPathCommit toy gb 1 [PorProposal (PRemove 3)] [] (pad 32 (str "new leaf")) [] (pad 32 (str "seed")) (str "r")).
Definition w111 := Eval vm_compute in getSome (noMessage, noCommit, noGroup) (acceptedPublic ga w111raw).
Lemma w111_accepted : acceptedPublic ga w111raw = Some w111.
Proof. vm_compute. reflexivity. Qed.
Definition c111 : commit := Eval vm_compute in snd (fst w111).
Definition ac111 : authenticatedContent := Eval vm_compute in publicContent (fst (fst w111)).
Lemma accepts111 : @accepts_commit toy ga w111raw clock ac111 c111 (snd w111).
Proof.
  assert (H : acceptedPublic ga w111raw = Some (fst (fst w111), c111, snd w111)) by (vm_compute; reflexivity).
  exact (acceptedPublic_commit ga w111raw (fst (fst w111)) c111 (snd w111) H).
Qed.

(** The tree, and the path *)
Definition t111 : ratchetTree := Eval vm_compute in getOr [] (vapply (gr_value ga) [PRemove 3] [1]).
Definition made111 : updatePath * bytes * ratchetTree := Eval vm_compute in
  getOr (mkUpdatePath (kp_leafNode stranger) [], [], []) (@makePath toy 1 t111 (gr_context ga) (map (fun li => 2 * li) []) 1
    (kp_leafNode (kpp_public bob)) (pad 32 (str "new leaf")) (gr_signaturePriv gb) [] (pad 32 (str "seed")) (str "r")).
Lemma made111_eq : @makePath toy 1 t111 (gr_context ga) (map (fun li => 2 * li) []) 1
    (kp_leafNode (kpp_public bob)) (pad 32 (str "new leaf")) (gr_signaturePriv gb) [] (pad 32 (str "seed")) (str "r") = Ok made111.
Proof. vm_compute. reflexivity. Qed.
Lemma t111_shaped : shaped 2 t111.
Proof. apply shapedb_ok; [unfold fits; lia|vm_compute; reflexivity]. Qed.
Lemma t111_below : lists_members_below 2 t111.
Proof. apply belowb_ok; [exact t111_shaped|vm_compute; reflexivity]. Qed.
Lemma ga_holds : @holds_its_keys toy ga.
Proof.
  assert (Sh : shaped 2 (gr_value ga)) by (apply shapedb_ok; [unfold fits; lia|vm_compute; reflexivity]).
  exists 2%nat. split; [exact Sh|]. eapply holdsb_ok; [reflexivity|exact Sh|reflexivity|vm_compute; reflexivity].
Qed.
Lemma path111 : c_path c111 = Some (fst (fst made111)).
Proof. vm_compute. reflexivity. Qed.
Lemma value111 : gr_value (snd w111) = snd made111.
Proof. vm_compute. reflexivity. Qed.
Lemma after111 : after_proposals (gr_value ga) [(PRemove 3, 1)] t111.
Proof. apply (vapply_one_by_one (gr_value ga) [(PRemove 3, 1)] t111 (sane_shape _ (obtained_sane _ ga_obtained))). vm_compute. reflexivity. Qed.

Lemma delivered111 : @delivered toy ga w111raw ac111.
Proof.
  constructor.
  - unfold ac111. apply made_public. vm_compute. reflexivity.
  - eapply (carries_content_wf (C := toy)). apply accepts111.
  - exact (proj1 (accepted_acceptable _ _ _ _ _ _ ga_obtained accepts111)).
  - vm_compute. reflexivity.
  - vm_compute. reflexivity.
Qed.
Lemma commits111 : commits ga 1 c111 [(PRemove 3, 1)].
Proof. apply (proj1 (resolveProposals_spec _ _ _ _)). vm_compute. reflexivity. Qed.
Lemma commit111 : @acceptable_commit toy ga ac111 c111 1 [(PRemove 3, 1)].
Proof.
  destruct (accepted_acceptable _ _ _ _ _ _ ga_obtained accepts111) as (_ & _ & li & ps & t & V & _).
  assert (li = 1) as -> by (pose proof (ac_sender _ _ _ _ _ V) as H; injection H as H; now symmetry).
  pose proof (proj2 (resolveProposals_spec _ _ _ _) (ac_proposals _ _ _ _ _ V)) as R1. pose proof (proj2 (resolveProposals_spec _ _ _ _) commits111) as R2.
  rewrite R1 in R2. apply Ok_inj in R2. now rewrite <- R2.
Qed.
Lemma tree111 : @valid_tree toy ga c111 1 [(PRemove 3, 1)] (gr_value (snd w111)).
Proof.
  destruct (tree_after_commit (C := toy) _ _ _ _ _ _ _ _ ga_obtained accepts111 eq_refl commits111) as (t & AP' & P).
  rewrite (after_proposals_fun _ _ _ _ AP' after111) in P. unfold valid_tree. rewrite path111 in *. destruct P as (Ck & k & Sk & Sk' & _).
  rewrite (height_unique k 2 _ (shaped_full _ _ Sk) (shaped_full _ _ t111_shaped)) in Sk'.
  exists 2%nat, t111, []. split.
  - constructor; auto.
    + exact after111.
    + exact t111_shaped.
    + exact t111_below.
    + apply lists_once_by. vm_compute. reflexivity.
    + rewrite value111. exists (snd (fst made111)).
      assert (M := made111_eq). rewrite (surjective_pairing made111), (surjective_pairing (fst made111)) in M.
      destruct (makePath_update_path (C := toy) 1 2 t111 (gr_context ga) [] 1 _ _ _ _ _ _ _ _ _ t111_shaped t111_below eq_refl M) as (Sh & th & Eth & U).
      destruct (shaped_hash (C := toy) _ _ _ (or_intror (ex_intro _ 2%nat Sh)) Eth) as (k' & Sh' & Eh).
      rewrite (height_unique k' 2 _ (shaped_full _ _ Sh') (shaped_full _ _ Sh)) in Eh. rewrite Eh in U. exact U.
    + split; [apply encodableb_ok; vm_compute; reflexivity|]. split; [apply encodableb_ok; vm_compute; reflexivity|].
      repeat (constructor; [vm_compute; reflexivity|]). constructor.
  - split; [vm_compute; discriminate|]. split; [exact ga_holds|]. split; [vm_compute; reflexivity|]. intros u a [].
Qed.
