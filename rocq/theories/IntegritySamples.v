(** Concrete trees for examples and counterexamples about verified trees. *)
From Verif Require Export IntegrityFacts TreeSamples Witness.

(** The tree after a commit of Bob with an update path; it has three members
    and two parent nodes. *)
Definition pathTree : ratchetTree := Eval vm_compute in deref (gr_heap (snd w55)) (gr_tree (snd w55)).
Definition pathContext : groupContext := Eval vm_compute in gr_context (snd w55).

(** A leaf node signed by its owner, listing these credential types *)
Definition lister (name : string) (creds : list N) : leafNode :=
  getOr (kp_leafNode stranger)
    (let key := pad 32 (str name) in
     @leafNodeSign toy 1 [] 0 key [] (mkLeafNode key key (mkCredential 1 (str name) []) (mkCapabilities [1] [1] [2] [1; 2; 3] creds)
       leafNodeSourceKeyPackage (Some (mkLifetime 2000000000 2000000200)) [] [] [])).
Definition listers (a b : list N) : ratchetTree := [Some (NLeaf (lister "a" a)); None; Some (NLeaf (lister "b" b))].
Definition contextOf (t : ratchetTree) : groupContext :=
  mkGroupContext 1 1 (str "grp") 0 (getOr [] (@computeRootTreeHash toy 1 t)) [] [].

(** The first lists the basic credential twice, the second not at all. *)
Definition twiceTree : ratchetTree := Eval vm_compute in listers [1; 1] [].
(** The first lists the basic credential twice, the second once. *)
Definition thriceTree : ratchetTree := Eval vm_compute in listers [1; 1] [1].
Definition onceTree : ratchetTree := Eval vm_compute in listers [1; 2] [1].

Definition leavesIn (t : ratchetTree) : list leafNode := flat_map (fun o => match o with Some (NLeaf l) => [l] | _ => [] end) t.
Lemma leaf_at_In t li l : leaf_at t li = Some l -> In l (leavesIn t).
Proof.
  unfold leaf_at. intros H. destruct (nth_error t (N.to_nat (2 * li))) as [[[m|]|]|] eqn:E; try discriminate. injection H as ->.
  apply nth_error_In in E. apply in_flat_map. eexists. split; [exact E|]. cbn. auto.
Qed.

Definition lifetimeb (l : leafNode) : bool :=
  match ln_lifetime l with None => true | Some lt => (lt_notBefore lt <? 2 ^ 64) && (lt_notAfter lt <? 2 ^ 64) end.
Lemma wf_lifetimes_by t : forallb lifetimeb (leavesIn t) = true -> wf_lifetimes t.
Proof.
  intros H li l Hl lt E. apply leaf_at_In in Hl. rewrite forallb_forall in H. specialize (H _ Hl). unfold lifetimeb in H. rewrite E in H.
  apply andb_true_iff in H. now rewrite !N.ltb_lt in H.
Qed.
Fixpoint distinctb (l : list N) : bool := match l with [] => true | x :: r => negb (memN x r) && distinctb r end.
Lemma distinctb_ok l : distinctb l = true -> NoDup l.
Proof.
  induction l as [|x l IH]; cbn; [constructor|]. intros H. apply andb_true_iff in H. destruct H as [H1 H2]. apply negb_true_iff, memN_false in H1. constructor; auto.
Qed.
Lemma lists_once_by t : forallb (fun l => distinctb (caps_credentials (ln_capabilities l))) (leavesIn t) = true -> lists_once t.
Proof. intros H li l Hl. apply leaf_at_In in Hl. rewrite forallb_forall in H. now apply distinctb_ok, H. Qed.

Lemma clock_later : later_than_1970 clock.
Proof. split; [|reflexivity]. split; split; cbn; lia. Qed.

Lemma pathTree_shaped : shaped 2 pathTree.
Proof. apply shapedb_ok; [unfold fits; lia|vm_compute; reflexivity]. Qed.
Lemma twiceTree_shaped : shaped 1 twiceTree.
Proof. apply shapedb_ok; [unfold fits; lia|vm_compute; reflexivity]. Qed.
Lemma thriceTree_shaped : shaped 1 thriceTree.
Proof. apply shapedb_ok; [unfold fits; lia|vm_compute; reflexivity]. Qed.
Lemma onceTree_shaped : shaped 1 onceTree.
Proof. apply shapedb_ok; [unfold fits; lia|vm_compute; reflexivity]. Qed.

Lemma pathTree_verified : @verifyIntegrity toy pathTree pathContext clock = Ok tt.
Proof. vm_compute. reflexivity. Qed.
Lemma twiceTree_verified : @verifyIntegrity toy twiceTree (contextOf twiceTree) clock = Ok tt.
Proof. vm_compute. reflexivity. Qed.
Lemma thriceTree_rejected : @verifyIntegrity toy thriceTree (contextOf thriceTree) clock <> Ok tt.
Proof. vm_compute. discriminate. Qed.

Lemma twiceTree_unsupported : ~ credentials_supported twiceTree.
Proof.
  intros H. specialize (H 0 _ eq_refl 1 _ eq_refl). vm_compute in H. exact H.
Qed.

(** It is rejected for no other reason. *)
Lemma thriceTree_integrity : @integrity toy 1 thriceTree (contextOf thriceTree) clock.
Proof.
  assert (W : wf_lifetimes thriceTree) by (apply wf_lifetimes_by; vm_compute; reflexivity).
  split.
  - destruct (rootTreeHash_sound (C := toy) 1 1 thriceTree (gc_treeHash (contextOf thriceTree)) thriceTree_shaped) as [H1 H2]; [vm_compute; reflexivity|].
    pose proof (proj1 (nodes_spec (C := toy) 1 thriceTree (contextOf thriceTree) [1] clock thriceTree_shaped W clock_later)) as G.
    destruct G as (G1 & G2 & G3 & G4); [eexists; split; [vm_compute; reflexivity|vm_compute; reflexivity]|].
    unfold integrity_but_credentials. splits; auto.
    + apply verifyParentHashes_sound; [exact thriceTree_shaped|now apply unmerged_below_range|vm_compute; reflexivity].
    + intros li l Hl. exact (proj1 (G1 li l Hl)).
  - intros li l Hl. apply leaf_at_In in Hl.
    assert (E : cred_type (ln_credential l) = 1).
    { revert l Hl. apply Forall_forall. vm_compute. repeat constructor. }
    rewrite E. intros li' l' Hl'. apply leaf_at_In in Hl'. revert l' Hl'. apply Forall_forall. vm_compute. repeat constructor.
Qed.

Lemma integrity_unsound : exists (C : crypto) k t ctx now,
  crypto_ok C /\ shaped k t /\ wf_lifetimes t /\ encodable t /\ later_than_1970 now /\ verifyIntegrity t ctx now = Ok tt /\ ~ integrity k t ctx now.
Proof.
  exists toy, 1%nat, twiceTree, (contextOf twiceTree), clock. splits.
  - exact toy_ok.
  - exact twiceTree_shaped.
  - apply wf_lifetimes_by. vm_compute. reflexivity.
  - intros n [E|[E|[E|[]]]]; inversion E; subst; eexists; vm_compute; reflexivity.
  - exact clock_later.
  - exact twiceTree_verified.
  - intros [_ H]. exact (twiceTree_unsupported H).
Qed.
Lemma integrity_incomplete : exists (C : crypto) k t ctx now,
  crypto_ok C /\ shaped k t /\ wf_lifetimes t /\ encodable t /\ later_than_1970 now /\ integrity k t ctx now /\ verifyIntegrity t ctx now <> Ok tt.
Proof.
  exists toy, 1%nat, thriceTree, (contextOf thriceTree), clock. splits.
  - exact toy_ok.
  - exact thriceTree_shaped.
  - apply wf_lifetimes_by. vm_compute. reflexivity.
  - intros n [E|[E|[E|[]]]]; inversion E; subst; eexists; vm_compute; reflexivity.
  - exact clock_later.
  - exact thriceTree_integrity.
  - exact thriceTree_rejected.
Qed.

(** *** Credential types *)
Lemma twice_supported : exists creds, supportedCreds twiceTree = Ok creds /\ In 1 creds /\ ~ listed_by_all twiceTree 1.
Proof.
  eexists. split; [vm_compute; reflexivity|]. split; [cbn; auto|]. intros H. specialize (H 1 _ eq_refl). vm_compute in H. exact H.
Qed.
Lemma thrice_unsupported : exists creds, supportedCreds thriceTree = Ok creds /\ ~ In 1 creds /\ listed_by_all thriceTree 1.
Proof.
  eexists. split; [vm_compute; reflexivity|]. split; [cbn; tauto|]. intros li l Hl. apply leaf_at_In in Hl. revert l Hl.
  apply Forall_forall. vm_compute. repeat constructor.
Qed.
