(** Trees with parent nodes that are parent-hash valid, and one whose root is not. *)
From Verif Require Export ParentFacts CommitTreeSamples.
From Verif Require Import SpecIntegrity.

(** The tree has no parent node. *)
Definition no_parentb (t : ratchetTree) : bool := forallb (fun o => match o with Some (NParent _) => false | _ => true end) t.
Lemma no_parents_valid (C : crypto) cs k t : shaped k t -> no_parentb t = true -> rfc_parents_valid cs t.
Proof.
  intros Sh H. unfold no_parentb in H. rewrite forallb_forall in H.
  assert (N : forall p n, at_path k t p <> Some (NParent n)).
  { intros p n E. unfold at_path in E. destruct (nth_error t _) as [o|] eqn:En; [|discriminate]. rewrite E in En. apply nth_error_In, H in En. discriminate. }
  exists k. split; [exact Sh|]. split; [intros p n u _ E|intros p n _ E]; now apply N in E.
Qed.
Lemma ga_parents : @rfc_parents_valid toy 1 (gr_value ga).
Proof. apply (no_parents_valid toy 1 2); [apply shapedb_ok; [unfold fits; lia|vm_compute; reflexivity]|vm_compute; reflexivity]. Qed.

Lemma parents_example :
  @obtained toy ga /\ @rfc_parents_valid toy (gc_cipherSuite (gr_context ga)) (gr_value ga) /\
  exists g' r n, @unmarshalAndProcessMessage toy ga w53pathRaw clock = (g', Ok r) /\ at_path 2 (gr_value g') [] = Some (NParent n).
Proof.
  split; [exact ga_obtained|]. split; [exact ga_parents|].
  destruct (acceptedPublic_commit ga w53pathRaw (fst (fst w53path)) (snd (fst w53path)) (snd w53path)) as (_ & _ & H).
  { rewrite w53path_accepted. now destruct w53path as [[? ?] ?]. }
  exists (snd w53path), None. eexists. split; [exact H|]. vm_compute. reflexivity.
Qed.

(** Alice is below the root and has its parent hash; Bob, in the resolution of
    the same child, is not listed as an unmerged leaf of the root. *)
Definition rootNode73 : parentNode := mkParentNode (pad 32 (str "root")) [] [].
Definition before73 : ratchetTree := Eval vm_compute in [leafOf alice; None; leafOf bob; Some (NParent rootNode73); leafOf dave; None; None].
Definition leaf73 : leafNode := Eval vm_compute in
  let l := kp_leafNode (kpp_public alice) in
  getOr l (@leafNodeSign toy 1 (str "grp") 0 (kpp_signatureKey alice) []
    (mkLeafNode (ln_encryptionKey l) (ln_signatureKey l) (ln_credential l) (ln_capabilities l) leafNodeSourceCommit None
       (@parent_hash toy 1 (pn_encryptionKey rootNode73) [] (@tree_hash toy 1 2 before73 [] 1 [true])) (ln_extensions l) [])).
Definition nodes73 : list (option node) := Eval vm_compute in [Some (NLeaf leaf73); None; leafOf bob; Some (NParent rootNode73); leafOf dave].
Definition tree73 : ratchetTree := Eval vm_compute in nodes73 ++ [None; None].
Definition welcome73 : welcome := Eval vm_compute in welcomeWith (infoWith nodes73 tree73).
Definition joined73 : group := Eval vm_compute in getOr noGroup (@groupFromWelcome toy welcome73 dave clock).

Lemma joined73_eq : @groupFromWelcome toy welcome73 dave clock = Ok joined73 /\ gr_value joined73 = tree73.
Proof. split; vm_compute; reflexivity. Qed.
Lemma tree73_shaped : shaped 2 tree73.
Proof. apply shapedb_ok; [unfold fits; lia|vm_compute; reflexivity]. Qed.
Lemma tree73_invalid : ~ @rfc_parents_valid toy 1 tree73.
Proof.
  intros (k & Sh & _ & V). rewrite (height_unique k 2 _ (shaped_full _ _ Sh) (shaped_full _ _ tree73_shaped)) in V. clear k Sh.
  assert (Hin : in_tree 2 []) by (unfold in_tree; cbn; lia). destruct (V [] rootNode73 Hin eq_refl) as (b & q & (H1 & d & H2 & H3) & H4).
  destruct b.
  - destruct H1 as [<-|[]]. vm_compute in H2. injection H2 as <-. vm_compute in H3. discriminate.
  - assert (X : exists x, In x (resolution 2 tree73 1 [false]) /\ x <> q).
    { destruct H1 as [<-|[<-|[]]]; [exists [false; true]|exists [false; false]]; (split; [vm_compute; auto|discriminate]). }
    destruct X as (x & Hx). destruct (proj1 (H4 x) Hx) as (u & [] & _).
Qed.
Lemma unmerged_unchecked : exists (C : crypto) w kpp now g,
  crypto_ok C /\ later_than_1970 now /\ groupFromWelcome w kpp now = Ok g /\ ~ rfc_parents_valid (gc_cipherSuite (gr_context g)) (gr_value g).
Proof.
  exists toy, welcome73, dave, clock, joined73. split; [exact toy_ok|]. split; [exact clock_later|]. split; [apply joined73_eq|].
  rewrite (proj2 joined73_eq). exact tree73_invalid.
Qed.
