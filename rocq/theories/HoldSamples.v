(** Bob removes Dave with an update path, and Alice and Carol follow. *)
From Verif Require Export FollowFacts CommitTreeSamples.

Definition qa : group := Eval vm_compute in hear ga (snd (snd secondWelcome)).
Definition qb : group := Eval vm_compute in hear (fst secondWelcome) (snd (snd secondWelcome)).
Definition qc : group := Eval vm_compute in hear gc (snd (snd secondWelcome)).
Lemma qa_obtained : @obtained toy qa.
Proof. replace qa with (hear ga (snd (snd secondWelcome))); [exact (obtained_hear _ _ ga_obtained)|vm_compute; reflexivity]. Qed.
Lemma qc_obtained : @obtained toy qc.
Proof. replace qc with (hear gc (snd (snd secondWelcome))); [exact (obtained_hear _ _ gc_obtained)|vm_compute; reflexivity]. Qed.

Definition w50raw : bytes := Eval vm_compute in
  getOr [] (@sendPathCommit toy qb 1 [PorProposal (PRemove 3)] [] (pad 32 (str "new leaf")) [] (pad 32 (str "seed")) (str "r")).
Definition w50 := Eval vm_compute in getSome (noMessage, noCommit, noGroup) (acceptedPublic qa w50raw).
Lemma w50_accepted : acceptedPublic qa w50raw = Some w50.
Proof. vm_compute. reflexivity. Qed.

(** The tree after the removal, and the path *)
Definition t50r : ratchetTree := Eval vm_compute in getOr [] (vapply (gr_value qa) [PRemove 3] [1]).
Definition made50r : updatePath * bytes * ratchetTree := Eval vm_compute in
  getOr (mkUpdatePath (kp_leafNode stranger) [], [], []) (@makePath toy 1 t50r (gr_context qa) (map (fun li => 2 * li) []) 1
    (kp_leafNode (kpp_public bob)) (pad 32 (str "new leaf")) (gr_signaturePriv qb) [] (pad 32 (str "seed")) (str "r")).
Lemma made50r_eq : @makePath toy 1 t50r (gr_context qa) (map (fun li => 2 * li) []) 1
    (kp_leafNode (kpp_public bob)) (pad 32 (str "new leaf")) (gr_signaturePriv qb) [] (pad 32 (str "seed")) (str "r") = Ok made50r.
Proof. vm_compute. reflexivity. Qed.
Lemma t50r_shaped : shaped 2 t50r.
Proof. apply shapedb_ok; [unfold fits; lia|vm_compute; reflexivity]. Qed.
Lemma t50r_below : lists_members_below 2 t50r.
Proof. apply belowb_ok; [exact t50r_shaped|vm_compute; reflexivity]. Qed.

Lemma qa_holds : @holds_its_keys toy qa.
Proof.
  assert (Sh : shaped 2 (gr_value qa)) by (apply shapedb_ok; [unfold fits; lia|vm_compute; reflexivity]).
  exists 2%nat. split; [exact Sh|]. eapply holdsb_ok; [reflexivity|exact Sh|reflexivity|vm_compute; reflexivity].
Qed.
Lemma qc_holds : @holds_its_keys toy qc.
Proof.
  assert (Sh : shaped 2 (gr_value qc)) by (apply shapedb_ok; [unfold fits; lia|vm_compute; reflexivity]).
  exists 2%nat. split; [exact Sh|]. eapply holdsb_ok; [reflexivity|exact Sh|reflexivity|vm_compute; reflexivity].
Qed.

Lemma path50r : c_path (snd (fst w50)) = Some (fst (fst made50r)).
Proof. vm_compute. reflexivity. Qed.
Lemma value50r : gr_value (snd w50) = snd made50r.
Proof. vm_compute. reflexivity. Qed.
Lemma after50r : after_proposals (gr_value qa) [(PRemove 3, 1)] t50r.
Proof. apply (vapply_one_by_one (gr_value qa) [(PRemove 3, 1)] t50r (sane_shape _ (obtained_sane _ qa_obtained))). vm_compute. reflexivity. Qed.
Lemma prescribed50r : @prescribed_path toy qa (snd w50) [(PRemove 3, 1)] 1 (fst (fst made50r)) 2 t50r [].
Proof.
  unfold prescribed_path. rewrite value50r. splits.
  - exact after50r.
  - exact t50r_shaped.
  - exact t50r_below.
  - exists (snd (fst made50r)).
    assert (M := made50r_eq). rewrite (surjective_pairing made50r), (surjective_pairing (fst made50r)) in M.
    destruct (makePath_update_path (C := toy) 1 2 t50r (gr_context qa) [] 1 _ _ _ _ _ _ _ _ _ t50r_shaped t50r_below eq_refl M) as (Sh & th & Eth & U).
    destruct (shaped_hash (C := toy) _ _ _ (or_intror (ex_intro _ 2%nat Sh)) Eth) as (k' & Sk & Eh).
    rewrite (height_unique k' 2 _ (shaped_full _ _ Sk) (shaped_full _ _ Sh)) in Eh. rewrite Eh in U. exact U.
Qed.
Lemma follow_example :
  exists ac c g' up, crypto_ok toy /\ @obtained toy qa /\ @obtained toy qc /\ agree qa qc /\ gr_pending qc = gr_pending qa /\
    @accepts_commit toy qa w50raw clock ac c g' /\ fc_sender (ac_content ac) = SMember 1 /\ commits qa 1 c [(PRemove 3, 1)] /\
    c_path c = Some up /\ @prescribed_path toy qa g' [(PRemove 3, 1)] 1 up 2 t50r [] /\
    @follows_path toy qa 1 2 t50r [] /\ @follows_path toy qc 1 2 t50r [] /\ up_nodes up <> [].
Proof.
  exists (publicContent (fst (fst w50))), (snd (fst w50)), (snd w50), (fst (fst made50r)). splits.
  - exact toy_ok.
  - exact qa_obtained.
  - exact qc_obtained.
  - repeat split; vm_compute; reflexivity.
  - reflexivity.
  - apply acceptedPublic_commit. rewrite w50_accepted. now destruct w50 as [[? ?] ?].
  - reflexivity.
  - apply (proj1 (resolveProposals_spec _ _ _ _)). vm_compute. reflexivity.
  - exact path50r.
  - exact prescribed50r.
  - split; [vm_compute; discriminate|]. split; [exact qa_holds|]. split; [vm_compute; reflexivity|]. intros u a [].
  - split; [vm_compute; discriminate|]. split; [exact qc_holds|]. split; [vm_compute; reflexivity|]. intros u a [].
  - vm_compute. discriminate.
Qed.

Lemma hold_example :
  @obtained toy qc /\ @holds_its_keys toy qc /\ same_leaf_key qc (hear qc w50raw) /\
  length (filter (fun o => match o with Some _ => true | None => false end) (gr_privTree qc)) = 1%nat /\
  length (filter (fun o => match o with Some _ => true | None => false end) (gr_privTree (hear qc w50raw))) = 2%nat.
Proof.
  split; [exact qc_obtained|]. split; [exact qc_holds|]. splits; vm_compute; reflexivity.
Qed.

(** Dave joins with a path secret. *)
Definition joined72 : group := Eval vm_compute in joinedWith.
Definition unmergedWhere (g : group) (secret : bool) (li : N) : bool :=
  forallb (fun p => match at_path 2 (gr_value g) p with
                    | Some (NParent pn) => negb (prefixb p (leafPath 2 (gr_myLeafIndex g))) || secret && prefixb p (leafPath 2 (designated li)) || memN (gr_myLeafIndex g) (pn_unmergedLeaves pn)
                    | _ => true
                    end) (pathsUpTo 2).
Lemma unmergedWhere_ok g secret li : shaped 2 (gr_value g) -> unmergedWhere g secret li = true -> unmerged_without_secret g secret li.
Proof.
  intros Sh H k p pn Sk Ha Hp Hor. rewrite (height_unique k 2 _ (shaped_full _ _ Sk) (shaped_full _ _ Sh)) in *.
  unfold unmergedWhere in H. rewrite forallb_forall in H. destruct Ha as (b & q & E).
  assert (Ip : in_tree 2 p). { unfold in_tree. pose proof (f_equal (@length bool) E) as L. rewrite leafPath_length, app_length in L. cbn in L. lia. }
  specialize (H p (in_pathsUpTo 2 p Ip)). rewrite Hp in H.
  assert (Pf : prefixb p (leafPath 2 (gr_myLeafIndex g)) = true) by (apply prefixb_ok; now exists (b :: q)).
  rewrite Pf in H. cbn [negb orb] in H. apply memN_In. destruct Hor as [->|Hn]; [exact H|].
  destruct (prefixb p (leafPath 2 (designated li))) eqn:E2; [apply prefixb_ok in E2; contradiction|]. now rewrite andb_false_r in H.
Qed.
Lemma joiner_holds_example : exists ref s, crypto_ok toy /\ groupFromWelcome (C := toy) (w52 t52c' (Some seed52)) dave clock = Ok joined72 /\
  keyPackageRef (C := toy) (kpp_public dave) = Ok ref /\ decryptGroupSecrets (C := toy) (w52 t52c' (Some seed52)) ref (kpp_initKey dave) = Ok s /\
  gs_pathSecret s <> None /\
  @opens toy (gc_cipherSuite (gr_context joined72)) (kpp_encryptionKey dave) (ln_encryptionKey (kp_leafNode (kpp_public dave))) /\
  (forall gi, decryptGroupInfo (C := toy) (w52 t52c' (Some seed52)) (gs_joinerSecret s) (gr_pskSecret joined72) = Ok gi ->
     unmerged_without_secret joined72 (match gs_pathSecret s with Some _ => true | None => false end) (gi_signer gi)).
Proof.
  exists (getOr [] (@keyPackageRef toy (kpp_public dave))), (mkGroupSecrets (zeros 32) (Some seed52) []). splits.
  - exact toy_ok.
  - vm_compute. reflexivity.
  - vm_compute. reflexivity.
  - vm_compute. reflexivity.
  - discriminate.
  - eexists. split; [vm_compute; reflexivity|]. apply toy_pair.
  - intros gi Hg. cbn [gs_joinerSecret gs_pathSecret] in *.
    assert (E : decryptGroupInfo (C := toy) (w52 t52c' (Some seed52)) (zeros 32) (gr_pskSecret joined72) = Ok (gi52 t52c')) by (vm_compute; reflexivity).
    rewrite Hg in E. apply Ok_inj in E. subst gi. apply unmergedWhere_ok; [apply shapedb_ok; [unfold fits; lia|vm_compute; reflexivity]|vm_compute; reflexivity].
Qed.
