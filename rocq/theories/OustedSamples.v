(** Bob removes Carol and gives Carol's leaf to a key package of Dave that has
    Carol's encryption key; Carol follows. *)
From Verif Require Export OustedFacts ReferenceSamples EndSamples.

Definition lureLeaf : leafNode := Eval vm_compute in
  let l := kp_leafNode (kpp_public dave) in
  getOr l (@leafNodeSign toy 1 [] 0 (kpp_signatureKey dave) []
    (mkLeafNode (ln_encryptionKey (kp_leafNode (kpp_public carol))) (ln_signatureKey l) (ln_credential l) (ln_capabilities l)
       (ln_source l) (ln_lifetime l) [] [] [])).
Definition lure : keyPackage := Eval vm_compute in
  let k := kpp_public dave in
  getOr k (@keyPackageSign toy (kpp_signatureKey dave) [] (mkKeyPackage (kp_version k) (kp_cipherSuite k) (kp_initKey k) lureLeaf [] [])).
Definition commit123 : bytes := Eval vm_compute in
  getOr [] (@sendPathCommit toy gb 1 [PorProposal (PRemove 2); PorProposal (PAdd lure)] [] (pad 32 (str "new leaf")) [] (pad 32 (str "seed")) (str "r")).
Definition w123 := Eval vm_compute in getSome (noMessage, noCommit, noGroup) (acceptedPublic gc commit123).
Lemma w123_accepted : acceptedPublic gc commit123 = Some w123.
Proof. vm_compute. reflexivity. Qed.
Definition w123a := Eval vm_compute in getSome (noMessage, noCommit, noGroup) (acceptedPublic ga commit123).
Lemma w123a_accepted : acceptedPublic ga commit123 = Some w123a.
Proof. vm_compute. reflexivity. Qed.
Lemma gc_accepts123 : @accepts_commit toy gc commit123 clock (publicContent (fst (fst w123))) (snd (fst w123)) (snd w123).
Proof. apply acceptedPublic_commit. rewrite w123_accepted. now destruct w123 as [[? ?] ?]. Qed.
Lemma ga_accepts123 : @accepts_commit toy ga commit123 clock (publicContent (fst (fst w123a))) (snd (fst w123a)) (snd w123a).
Proof. apply acceptedPublic_commit. rewrite w123a_accepted. now destruct w123a as [[? ?] ?]. Qed.
Definition words123 : bytes := Eval vm_compute in getOr [] (@createApplicationMessage toy (snd w123) (str "hello") [] (str "efgh")).

Lemma not_its_member {C : crypto} g ac c i l r k : c_proposals c = [PorProposal (PRemove r); PorProposal (PAdd k)] ->
  match c_path c with Some up => ln_source (up_leafNode up) <> ln_source l | None => True end -> ~ by_its_member g ac c i l.
Proof.
  intros E P [(_ & [(up & Hu & Hl)|H])|(m & _ & _ & H)].
  - rewrite Hu in P. now subst l.
  - rewrite E in H. destruct H as [H|[H|[]]]; discriminate H.
  - rewrite E in H. destruct H as [H|[H|[]]]; discriminate H.
Qed.

Theorem carol_ousted : exists (C : crypto) g g2 raw now ac c g' ac2 c2 g2' l' data rs rg m e,
  crypto_ok C /\ obtained g /\ obtained g2 /\ agree g g2 /\ can_sign g /\
  accepts_commit g raw now ac c g' /\ accepts_commit g2 raw now ac2 c2 g2' /\ agree g' g2' /\
  leaf_at (gr_value g') (gr_myLeafIndex g') = Some l' /\ ~ still_its_leaf g ac c l' /\
  createApplicationMessage g' data rs rg = Ok m /\ unmarshalAndProcessMessage g2' m now = (g2', Err e).
Proof.
  exists toy, gc, ga, commit123, clock, (publicContent (fst (fst w123))), (snd (fst w123)), (snd w123),
    (publicContent (fst (fst w123a))), (snd (fst w123a)), (snd w123a), lureLeaf, (str "hello"), [], (str "efgh"), words123,
    "failed to verify private message content signature"%string.
  split; [exact toy_ok|]. split; [exact gc_obtained|]. split; [exact ga_obtained|].
  split; [split; [vm_compute; reflexivity|split; [vm_compute; reflexivity|vm_compute; repeat split; reflexivity]]|].
  split; [destruct trio_together as (e & _ & F); apply Forall_inv_tail, Forall_inv_tail, Forall_inv in F; apply F|].
  split; [exact gc_accepts123|]. split; [exact ga_accepts123|].
  split; [split; [vm_compute; reflexivity|split; [vm_compute; reflexivity|vm_compute; repeat split; reflexivity]]|].
  split; [vm_compute; reflexivity|]. split.
  { intros [H|H].
    - assert (E : option_map ln_signatureKey (leaf_at (gr_value gc) (gr_myLeafIndex gc)) = Some (ln_signatureKey lureLeaf)) by (rewrite H; reflexivity).
      vm_compute in E. discriminate E.
    - revert H. apply (not_its_member _ _ _ _ _ 2 lure); [vm_compute; reflexivity|]. vm_compute. discriminate. }
  split; vm_compute; reflexivity.
Qed.
Lemma ousted_example : @obtained toy gc /\ @accepts_commit toy gc commit123 clock (publicContent (fst (fst w123))) (snd (fst w123)) (snd w123) /\
  fc_sender (ac_content (publicContent (fst (fst w123)))) = SMember 1 /\ leaf_at (gr_value (snd w123)) 2 = Some lureLeaf /\
  @obtained toy ga /\ @accepts_commit toy ga commit123 clock (publicContent (fst (fst w123a))) (snd (fst w123a)) (snd w123a) /\
  c_proposals (snd (fst w123a)) = [PorProposal (PRemove 2); PorProposal (PAdd lure)] /\ gr_myLeafIndex ga = 0.
Proof.
  split; [exact gc_obtained|]. split; [exact gc_accepts123|]. split; [vm_compute; reflexivity|]. split; [vm_compute; reflexivity|].
  split; [exact ga_obtained|]. split; [exact ga_accepts123|]. split; vm_compute; reflexivity.
Qed.
