(** Concrete commits that bring keys twice, or leaves not signed, into the tree. *)
From Coq Require Import Lia.
From Verif Require Export GroupSamples KeyFacts SoundFacts.

(** ** Checks by evaluation *)
Lemma somes_distinct {A} (l : list (option A)) : NoDup (somes l) -> forall i j a, nth_error l i = Some (Some a) -> nth_error l j = Some (Some a) -> i = j.
Proof.
  induction l as [|o l IH]; intros N i j a Hi Hj; [destruct i; discriminate|]. change (o :: l) with ([o] ++ l) in N. rewrite somes_app in N.
  destruct i as [|i], j as [|j]; cbn in Hi, Hj; auto.
  - injection Hi as ->. cbn in N. inversion N as [|? ? Hx]; subst. exfalso. apply Hx. apply somes_In. eapply nth_error_In; eauto.
  - injection Hj as ->. cbn in N. inversion N as [|? ? Hx]; subst. exfalso. apply Hx. apply somes_In. eapply nth_error_In; eauto.
  - f_equal. apply (IH (NoDup_app_right _ _ N) i j a); auto.
Qed.
Lemma distinct_node_keys_by t : distinctBytes (encryptionKeysOf t) = true -> distinct_node_keys t.
Proof.
  intros H i j n m Hi Hj E. apply distinctBytes_ok in H. apply (somes_distinct _ H i j (node_encryptionKey n)); rewrite nth_error_map; [rewrite Hi|rewrite Hj]; cbn; congruence.
Qed.
Definition signatureKeysOf (t : ratchetTree) : list bytes := somes (map (fun o => option_map ln_signatureKey (leafPart o)) t).
Lemma distinct_signature_keys_by t : distinctBytes (signatureKeysOf t) = true -> distinct_signature_keys t.
Proof.
  intros H i j a b Ha Hb E. apply distinctBytes_ok in H. apply leaf_index in Ha, Hb.
  assert (N.to_nat (2 * i) = N.to_nat (2 * j)); [|lia].
  apply (somes_distinct _ H _ _ (ln_signatureKey a)); rewrite nth_error_map; [rewrite Ha|rewrite Hb]; cbn; congruence.
Qed.
Definition allSignedb (cs : N) (gid : bytes) (t : ratchetTree) : bool :=
  forallb (fun p => match @leafNodeVerifySignature toy cs gid (fst p) (snd p) with Ok true => true | _ => false end) (allLeaves t).
Lemma all_signed_by cs gid t : well_shaped t -> allSignedb cs gid t = true -> @all_signed toy cs gid t.
Proof.
  intros W H li l Hl. destruct W as [->|(k & F & _)]; [unfold leaf_at in Hl; destruct (N.to_nat (2 * li)); discriminate|].
  unfold allSignedb in H. rewrite forallb_forall in H. apply (allLeaves_In k t li l F) in Hl. specialize (H _ Hl). cbn [fst snd] in H.
  apply leafNodeVerifySignature_spec. destruct (leafNodeVerifySignature cs gid li l) as [[]|?|?|]; try discriminate. reflexivity.
Qed.

(** *** Bob adds themselves once more. *)
Definition w53raw : bytes := Eval vm_compute in
  getOr [] (@sendPublic toy gb 1 (BCommit (mkCommit [PorProposal (PAdd (kpp_public bob))] None)) [] (str "tag")).
Definition w53 := Eval vm_compute in getSome (noMessage, noCommit, noGroup) (acceptedPublic ga w53raw).
Lemma w53_accepted : acceptedPublic ga w53raw = Some w53.
Proof. vm_compute. reflexivity. Qed.

(** *** Bob adds Dave with a leaf node whose signature is "bogus". *)
Definition unsignedLeaf (l : leafNode) : leafNode :=
  mkLeafNode (ln_encryptionKey l) (ln_signatureKey l) (ln_credential l) (ln_capabilities l) (ln_source l) (ln_lifetime l) (ln_parentHash l) (ln_extensions l) (str "bogus").
Definition unsignedDave : keyPackage := Eval vm_compute in
  let k := kpp_public dave in
  getOr stranger (@keyPackageSign toy (kpp_signatureKey dave) [] (mkKeyPackage (kp_version k) (kp_cipherSuite k) (kp_initKey k) (unsignedLeaf (kp_leafNode k)) [] [])).
Definition w54raw : bytes := Eval vm_compute in
  getOr [] (@sendPublic toy gb 1 (BCommit (mkCommit [PorProposal (PAdd unsignedDave)] None)) [] (str "tag")).
Definition w54 := Eval vm_compute in getSome (noMessage, noCommit, noGroup) (acceptedPublic ga w54raw).
Lemma w54_accepted : acceptedPublic ga w54raw = Some w54.
Proof. vm_compute. reflexivity. Qed.

Lemma keys_repeated : exists (C : crypto) g raw now ac c g',
  crypto_ok C /\ obtained g /\ accepts_commit g raw now ac c g' /\ distinct_signature_keys (gr_value g) /\ distinct_node_keys (gr_value g) /\
  ~ distinct_signature_keys (gr_value g') /\ ~ distinct_node_keys (gr_value g').
Proof.
  exists toy, ga, w53raw, clock, (publicContent (fst (fst w53))), (snd (fst w53)), (snd w53).
  splits.
  - exact toy_ok.
  - exact ga_obtained.
  - apply acceptedPublic_commit. rewrite w53_accepted. now destruct w53 as [[? ?] ?].
  - apply distinct_signature_keys_by. vm_compute. reflexivity.
  - apply distinct_node_keys_by. vm_compute. reflexivity.
  - intros H. specialize (H 1 3 (kp_leafNode (kpp_public bob)) (kp_leafNode (kpp_public bob))). assert (1 = 3); [|discriminate].
    apply H; [vm_compute; reflexivity|vm_compute; reflexivity|reflexivity].
  - intros H. specialize (H 2%nat 6%nat (NLeaf (kp_leafNode (kpp_public bob))) (NLeaf (kp_leafNode (kpp_public bob)))). assert (2 = 6)%nat; [|discriminate].
    apply H; [vm_compute; reflexivity|vm_compute; reflexivity|reflexivity].
Qed.

Lemma unsigned_accepted : exists (C : crypto) g raw now ac c g',
  crypto_ok C /\ obtained g /\ accepts_commit g raw now ac c g' /\
  all_signed (gc_cipherSuite (gr_context g)) (gc_groupID (gr_context g)) (gr_value g) /\
  exists li l, leaf_at (gr_value g') li = Some l /\ forall i, ~ leaf_signed (gc_cipherSuite (gr_context g)) (gc_groupID (gr_context g)) i l.
Proof.
  exists toy, ga, w54raw, clock, (publicContent (fst (fst w54))), (snd (fst w54)), (snd w54).
  splits.
  - exact toy_ok.
  - exact ga_obtained.
  - apply acceptedPublic_commit. rewrite w54_accepted. now destruct w54 as [[? ?] ?].
  - apply all_signed_by; [exact (sane_shape _ (obtained_sane _ ga_obtained))|]. vm_compute. reflexivity.
  - exists 3, (kp_leafNode unsignedDave). split; [vm_compute; reflexivity|]. intros i H. apply leafNodeVerifySignature_spec in H.
    assert (E : leafNodeVerifySignature (C := toy) (gc_cipherSuite (gr_context ga)) (gc_groupID (gr_context ga)) i (kp_leafNode unsignedDave)
              = leafNodeVerifySignature (C := toy) (gc_cipherSuite (gr_context ga)) (gc_groupID (gr_context ga)) 0 (kp_leafNode unsignedDave)) by reflexivity.
    assert (X : Ok false = Ok true :> res bool); [|discriminate]. rewrite <- H, E. vm_compute. reflexivity.
Qed.

(** *** Carol commits, using 2^31 + 2 for their leaf index 2. *)
Definition w54b : bytes := Eval vm_compute in
  getOr [] (@sendPathCommit toy gc (2 ^ 31 + 2) [] [] (pad 32 (str "new leaf")) [] (pad 32 (str "seed")) (str "r")).
Definition w54c := Eval vm_compute in getSome (noMessage, noCommit, noGroup) (acceptedPublic ga w54b).
Lemma w54c_accepted : acceptedPublic ga w54b = Some w54c.
Proof. vm_compute. reflexivity. Qed.
Lemma misplaced_accepted : exists (C : crypto) g raw now ac c g',
  crypto_ok C /\ obtained g /\ accepts_commit g raw now ac c g' /\ c_proposals c = [] /\
  all_signed (gc_cipherSuite (gr_context g)) (gc_groupID (gr_context g)) (gr_value g) /\
  ~ all_signed (gc_cipherSuite (gr_context g)) (gc_groupID (gr_context g)) (gr_value g').
Proof.
  exists toy, ga, w54b, clock, (publicContent (fst (fst w54c))), (snd (fst w54c)), (snd w54c).
  splits.
  - exact toy_ok.
  - exact ga_obtained.
  - apply acceptedPublic_commit. rewrite w54c_accepted. now destruct w54c as [[? ?] ?].
  - vm_compute. reflexivity.
  - apply all_signed_by; [exact (sane_shape _ (obtained_sane _ ga_obtained))|]. vm_compute. reflexivity.
  - intros H. destruct (leaf_at (gr_value (snd w54c)) 2) as [l|] eqn:E; [|vm_compute in E; discriminate]. specialize (H 2 l E).
    apply leafNodeVerifySignature_spec in H. vm_compute in E. injection E as <-. vm_compute in H. discriminate.
Qed.

(** *** Bob adds Dave, removes Carol and sends an update path. *)
Definition w53pathRaw : bytes := Eval vm_compute in
  getOr [] (@sendPathCommit toy gb 1 [PorProposal (PAdd (kpp_public dave)); PorProposal (PRemove 2)] []
              (pad 32 (str "new leaf")) [] (pad 32 (str "seed")) (str "r")).
Definition w53path := Eval vm_compute in getSome (noMessage, noCommit, noGroup) (acceptedPublic ga w53pathRaw).
Lemma w53path_accepted : acceptedPublic ga w53pathRaw = Some w53path.
Proof. vm_compute. reflexivity. Qed.
Definition ga_leaves : list leafNode := [kp_leafNode (kpp_public alice); kp_leafNode (kpp_public bob); kp_leafNode (kpp_public carol)].
Lemma ga_leaf j l : leaf_at (gr_value ga) j = Some l -> In l ga_leaves.
Proof. intros H. apply leaf_at_leafNodesOf in H. exact H. Qed.
Lemma dave_fresh f : (forall l, In l ga_leaves -> f l <> f (kp_leafNode (kpp_public dave))) ->
  fresh_keys f (leaf_at (gr_value ga)) [(PAdd (kpp_public dave), 1); (PRemove 2, 1)].
Proof.
  intros H. split; [|split].
  - cbn. constructor; [intros []|constructor].
  - intros s n j l [].
  - intros n j l [<-|[]] Hl. apply H. eapply ga_leaf; eauto.
Qed.
Lemma ga_no_parent key : ~ parent_key (gr_value ga) key.
Proof. intros (i & pn & H & _). apply nth_error_In in H. vm_compute in H. repeat (destruct H as [H|H]; [discriminate|]). exact H. Qed.
Lemma keys_example :
  exists ac c g', @obtained toy ga /\ @accepts_commit toy ga w53pathRaw clock ac c g' /\ fc_sender (ac_content ac) = SMember 1 /\
    commits ga 1 c [(PAdd (kpp_public dave), 1); (PRemove 2, 1)] /\
    distinct_signature_keys (gr_value ga) /\ fresh_keys ln_signatureKey (leaf_at (gr_value ga)) [(PAdd (kpp_public dave), 1); (PRemove 2, 1)] /\
    distinct_node_keys (gr_value ga) /\ fresh_encryption_keys (gr_value ga) [(PAdd (kpp_public dave), 1); (PRemove 2, 1)] (c_path c) /\
    c_path c <> None /\ leaf_at (gr_value g') 2 = Some (kp_leafNode (kpp_public dave)).
Proof.
  exists (publicContent (fst (fst w53path))), (snd (fst w53path)), (snd w53path). splits.
  - exact ga_obtained.
  - apply acceptedPublic_commit. rewrite w53path_accepted. now destruct w53path as [[? ?] ?].
  - reflexivity.
  - apply (proj1 (resolveProposals_spec _ _ _ _)). vm_compute. reflexivity.
  - apply distinct_signature_keys_by. vm_compute. reflexivity.
  - apply dave_fresh. intros l [<-|[<-|[<-|[]]]]; vm_compute; discriminate.
  - apply distinct_node_keys_by. vm_compute. reflexivity.
  - split; [|split].
    + apply dave_fresh. intros l [<-|[<-|[<-|[]]]]; vm_compute; discriminate.
    + intros l _. apply ga_no_parent.
    + intros up E. split; [|intros; apply ga_no_parent]. apply distinctBytes_ok. vm_compute in E. injection E as <-. vm_compute. reflexivity.
  - vm_compute. discriminate.
  - vm_compute. reflexivity.
Qed.
Lemma signed_example :
  exists ac c g', @obtained toy ga /\ @accepts_commit toy ga w53pathRaw clock ac c g' /\ fc_sender (ac_content ac) = SMember 1 /\
    commits ga 1 c [(PAdd (kpp_public dave), 1); (PRemove 2, 1)] /\
    @all_signed toy (gc_cipherSuite (gr_context ga)) (gc_groupID (gr_context ga)) (gr_value ga) /\
    @new_leaves_signed toy (gc_cipherSuite (gr_context ga)) (gc_groupID (gr_context ga)) [(PAdd (kpp_public dave), 1); (PRemove 2, 1)].
Proof.
  exists (publicContent (fst (fst w53path))), (snd (fst w53path)), (snd w53path). splits.
  - exact ga_obtained.
  - apply acceptedPublic_commit. rewrite w53path_accepted. now destruct w53path as [[? ?] ?].
  - reflexivity.
  - apply (proj1 (resolveProposals_spec _ _ _ _)). vm_compute. reflexivity.
  - apply all_signed_by; [exact (sane_shape _ (obtained_sane _ ga_obtained))|]. vm_compute. reflexivity.
  - split; [intros s n []|]. intros n [<-|[]] li. apply leafNodeVerifySignature_spec.
    transitivity (leafNodeVerifySignature (C := toy) (gc_cipherSuite (gr_context ga)) (gc_groupID (gr_context ga)) 0 (kp_leafNode (kpp_public dave))); [reflexivity|].
    vm_compute. reflexivity.
Qed.
