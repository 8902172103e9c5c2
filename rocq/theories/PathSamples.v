(** Concrete update paths and path secrets, with the toy primitives. *)
From Verif Require Export SenderFacts JoinPathFacts KeySamples.

(** ** Decision procedures *)
Fixpoint pathsUpTo (k : nat) : list path :=
  match k with
  | O => [[]]
  | S k' => [] :: map (cons false) (pathsUpTo k') ++ map (cons true) (pathsUpTo k')
  end.
Lemma in_pathsUpTo k : forall p, in_tree k p -> In p (pathsUpTo k).
Proof.
  unfold in_tree. induction k as [|k IH]; intros [|b p] H; cbn [length] in H; try lia; [now left|now left|].
  right. apply in_app_iff. destruct b; [right|left]; apply in_map, IH; lia.
Qed.
Fixpoint prefixb (a p : path) : bool :=
  match a, p with
  | [], _ => true
  | x :: a', y :: p' => Bool.eqb x y && prefixb a' p'
  | _ :: _, [] => false
  end.
Lemma prefixb_ok a : forall p, prefixb a p = true <-> ancestor_or_self a p.
Proof.
  induction a as [|x a IH]; intros p.
  - split; [intros _; now exists p|reflexivity].
  - destruct p as [|y p]; cbn [prefixb].
    + split; [discriminate|]. intros [s E]. discriminate.
    + rewrite andb_true_iff, IH, eqb_true_iff. split.
      * intros [-> [s ->]]. now exists s.
      * intros [s E]. injection E as -> ->. split; [reflexivity|now exists s].
Qed.

Lemma toy_pair kem key : hpke_pair toy kem key key.
Proof.
  intros kdf aead info rnd pt. cbn. do 2 eexists. split; [reflexivity|]. apply toyOpen_seal, toyDigest_len.
Qed.

Definition holdsb (k : nat) (t : ratchetTree) (priv : privTree) (li : N) : bool :=
  (lenN priv =? lenN t) &&
  forallb (fun p =>
    match at_path k priv p, at_path k t p with
    | Some key, Some n => prefixb p (leafPath k li) && bytes_eqb key (node_encryptionKey n)
    | Some _, None => prefixb p (leafPath k li)
    | None, Some (NParent pn) => negb (prefixb p (leafPath k li)) || memN li (pn_unmergedLeaves pn)
    | None, Some (NLeaf _) => negb (prefixb p (leafPath k li))
    | None, None => true
    end) (pathsUpTo k).
Lemma holdsb_ok cs k t priv li d : cipherSuiteDescriptions cs = Some d -> shaped k t -> li < leaf_count k -> holdsb k t priv li = true -> @holds_keys toy cs k t priv li.
Proof.
  intros Hd Sh Hli H. unfold holdsb in H. apply andb_true_iff in H. destruct H as [H1 H]. apply N.eqb_eq in H1. rewrite forallb_forall in H.
  assert (H' : forall p, in_tree k p -> _) by (intros p Hp; exact (H p (in_pathsUpTo k p Hp))). clear H. cbn beta in H'. constructor.
  - exact H1.
  - intros p n Hp Hn Kn E. specialize (H' p Hp). rewrite E, Hn in H'.
    assert (Pf : prefixb p (leafPath k li) = true).
    { apply prefixb_ok. destruct Kn as [->|[(b & s & ->) _]]; [exists []; now rewrite app_nil_r|now exists (b :: s)]. }
    rewrite Pf in H'. destruct n as [l|pn]; [discriminate|]. destruct Kn as [->|[_ Kn]].
    + pose proof (proj2 Sh _ _ Hp Hn) as X. cbn in X. rewrite leafPath_length in X. lia.
    + cbn in H'. apply Kn. apply memN_In. exact H'.
  - intros p n key Hp Hn E. specialize (H' p Hp). rewrite E, Hn in H'. apply andb_true_iff in H'. destruct H' as [_ H']. apply bytes_eqb_true in H'. subst key.
    exists d. split; [assumption|]. apply toy_pair.
  - intros p Hp E. specialize (H' p Hp). destruct (at_path k priv p) as [key|]; [|congruence]. apply prefixb_ok.
    destruct (at_path k t p); [apply andb_true_iff in H'; tauto|assumption].
Qed.

Definition belowb (k : nat) (t : ratchetTree) : bool :=
  forallb (fun p =>
    match at_path k t p with
    | Some (NParent pn) => forallb (fun u => (u <? leaf_count k) && prefixb p (leafPath k u) && match leaf_at t u with Some _ => true | None => false end) (pn_unmergedLeaves pn)
    | _ => true
    end) (pathsUpTo k).
Lemma belowb_ok k t : shaped k t -> belowb k t = true -> lists_members_below k t.
Proof.
  intros Sh H q pn u Hq Hn Hu. unfold belowb in H. rewrite forallb_forall in H. specialize (H q (in_pathsUpTo k q Hq)). rewrite Hn, forallb_forall in H.
  specialize (H u Hu). rewrite !andb_true_iff in H. destruct H as [[H1 H2] H3]. apply N.ltb_lt in H1. apply prefixb_ok in H2. splits; auto.
  - destruct H2 as [[|b s] E]; [|now exists b, s]. pose proof (proj2 Sh _ _ Hq Hn) as X. cbn in X. apply (f_equal (@length bool)) in E.
    rewrite app_nil_r in E. rewrite leafPath_length in E. lia.
  - intros E. rewrite E in H3. discriminate.
Qed.

(** ** Bob sends an update path in a commit that adds Dave. *)
Definition t50 : ratchetTree := Eval vm_compute in getOr [] (vapply (gr_value aliceAfterPath) [PAdd (kpp_public dave)] [1]).
Definition made50 : updatePath * bytes * ratchetTree := Eval vm_compute in
  getOr (mkUpdatePath (kp_leafNode stranger) [], [], []) (@makePath toy 1 t50 (gr_context aliceAfterPath) (map (fun li => 2 * li) [3]) 1
    (kp_leafNode (kpp_public bob)) (pad 32 (str "leaf key")) (kpp_signatureKey bob) [] (pad 32 (str "seed")) (str "r")).
Lemma made50_eq : @makePath toy 1 t50 (gr_context aliceAfterPath) (map (fun li => 2 * li) [3]) 1
    (kp_leafNode (kpp_public bob)) (pad 32 (str "leaf key")) (kpp_signatureKey bob) [] (pad 32 (str "seed")) (str "r") = Ok made50.
Proof. vm_compute. reflexivity. Qed.
Definition th50 : bytes := Eval vm_compute in getOr [] (@computeRootTreeHash toy 1 (snd made50)).
Definition ctx50 : groupContext := Eval vm_compute in nextContext (gr_context aliceAfterPath) th50 (gc_confirmedTranscriptHash (gr_context aliceAfterPath)).
Definition up50 := fst (fst made50).
Definition z50 := snd (fst made50).
Definition t50' := snd made50.
Lemma t50_shaped : shaped 2 t50.
Proof. apply shapedb_ok; [unfold fits; lia|vm_compute; reflexivity]. Qed.
Lemma t50_below : lists_members_below 2 t50.
Proof. apply belowb_ok; [exact t50_shaped|vm_compute; reflexivity]. Qed.
Lemma made50_path : shaped 2 t50' /\ @update_path toy 1 2 t50 t50' [3] ctx50 1 up50 z50.
Proof.
  destruct (makePath_update_path 1 2 t50 (gr_context aliceAfterPath) [3] 1 (kp_leafNode (kpp_public bob)) (pad 32 (str "leaf key"))
    (kpp_signatureKey bob) [] (pad 32 (str "seed")) (str "r") up50 z50 t50' t50_shaped t50_below eq_refl made50_eq) as (Sh & th & Eth & U).
  split; [assumption|]. assert (E : th = th50).
  { apply Ok_inj. rewrite <- Eth. vm_compute. reflexivity. }
  subst th. exact U.
Qed.
Lemma alice50 : @holds_keys toy 1 2 t50 (gr_privTree aliceAfterPath) 0.
Proof. eapply holdsb_ok; [reflexivity|exact t50_shaped|reflexivity|vm_compute; reflexivity]. Qed.
Lemma carol50 : @holds_keys toy 1 2 t50 (gr_privTree carolAfterPath) 2.
Proof. eapply holdsb_ok; [reflexivity|exact t50_shaped|reflexivity|vm_compute; reflexivity]. Qed.

Lemma path_refused : exists (C : crypto) cs k t t' new ctx li r up z priv e,
  crypto_ok C /\ shaped k t /\ lists_members_below k t /\ shaped k t' /\ update_path cs k t t' new ctx li up z /\
  r < leaf_count k /\ r <> li /\ leaf_at t r <> None /\ holds_keys cs k t priv r /\ ~ In r new /\
  decryptPathSecrets cs t' ctx li r up priv = Err e.
Proof.
  exists toy, 1, 2%nat, t50, t50', [3], ctx50, 1, 2, up50, z50, (gr_privTree carolAfterPath), "mls: invalid UpdatePathNode.encrypted_path_secret length"%string.
  splits.
  - exact toy_ok.
  - exact t50_shaped.
  - exact t50_below.
  - apply made50_path.
  - apply made50_path.
  - reflexivity.
  - discriminate.
  - vm_compute. discriminate.
  - exact carol50.
  - intros [H|[]]. discriminate.
  - vm_compute. reflexivity.
Qed.
Lemma path_example :
  shaped 2 t50 /\ lists_members_below 2 t50 /\ shaped 2 t50' /\ @update_path toy 1 2 t50 t50' [3] ctx50 1 up50 z50 /\
  @holds_keys toy 1 2 t50 (gr_privTree aliceAfterPath) 0 /\
  (forall u a, In u [3] -> ancestor_or_self a (leafPath 2 0) -> ancestor_or_self a (leafPath 2 u) -> ancestor_or_self a (leafPath 2 1)).
Proof.
  splits.
  - exact t50_shaped.
  - exact t50_below.
  - apply made50_path.
  - apply made50_path.
  - exact alice50.
  - intros u a [<-|[]] [s1 E1] [s2 E2]. cbn in E1, E2. destruct a as [|b a]; [now exists [false; true]|]. injection E1 as <- E1. discriminate.
Qed.

Lemma surjective_pairing_eq {A B} (p : A * B) b : snd p = b -> p = (fst p, b).
Proof. destruct p. cbn. congruence. Qed.

(** *** The same with messages: Alice follows, Carol does not. *)
Definition addPathRaw : bytes := Eval vm_compute in
  getOr [] (@sendPathCommit toy gb 1 [PorProposal (PAdd (kpp_public dave))] [6] (pad 32 (str "new leaf")) [] (pad 32 (str "seed")) (str "r")).
Lemma commit_splits_group : exists (C : crypto) g m raw now g' m' e,
  crypto_ok C /\ obtained g /\ obtained m /\ agree g m /\
  unmarshalAndProcessMessage g raw now = (g', Ok None) /\ leaf_at (gr_value g') (gr_myLeafIndex m) <> None /\
  unmarshalAndProcessMessage m raw now = (m', Err e).
Proof.
  exists toy, ga, gc, addPathRaw, clock, (hear ga addPathRaw), (hear gc addPathRaw), "mls: invalid UpdatePathNode.encrypted_path_secret length"%string.
  splits.
  - exact toy_ok.
  - exact ga_obtained.
  - exact gc_obtained.
  - repeat split; vm_compute; reflexivity.
  - apply surjective_pairing_eq. vm_compute. reflexivity.
  - vm_compute. discriminate.
  - apply surjective_pairing_eq. vm_compute. reflexivity.
Qed.

(** ** Alice commits with an update path and invites Dave, next to them. *)
Definition leafOf (p : keyPairPackage) : option node := Some (NLeaf (kp_leafNode (kpp_public p))).
(** The other members are Bob, and Carol in the other half of the tree. *)
Definition t52 : ratchetTree := Eval vm_compute in
  [leafOf alice; None; leafOf dave; None; leafOf bob; None; None; None; leafOf carol; None; None; None; None; None; None].
Definition c52 : groupContext := mkGroupContext 1 1 (str "grp") 4 [] (str "confirmed") [].
Definition madePath (t : ratchetTree) : updatePath * bytes * ratchetTree :=
  getOr (mkUpdatePath (kp_leafNode stranger) [], [], []) (@makePath toy 1 t c52 (map (fun li => 2 * li) [1]) 0
    (kp_leafNode (kpp_public alice)) (pad 32 (str "leaf key")) (kpp_signatureKey alice) [] (pad 32 (str "seed")) (str "r")).
Definition t52' : ratchetTree := Eval vm_compute in snd (madePath t52).
Definition gi52 (t : ratchetTree) : groupInfo := getOr (mkGroupInfo c52 [] [] 0 [])
  (let! th := @computeRootTreeHash toy 1 t in
   let! raw := putRatchetTree t in
   let ctx := mkGroupContext 1 1 (str "grp") 5 th (str "confirmed") [] in
   let! psk := @extractPSKSecret toy 1 [] [] in
   let! epoch := @extractEpochSecret toy ctx (zeros 32) psk in
   let! tag := @signConfirmationTag toy ctx epoch in
   @groupInfoSign toy (kpp_signatureKey alice) [] (mkGroupInfo ctx [mkExtension 2 raw] tag 0 [])).
Definition w52 (t : ratchetTree) (s : option bytes) : welcome := getOr noWelcome
  (forgeWelcome (gi52 t) (mkGroupSecrets (zeros 32) s []) (kpp_public dave)).
Definition seed52 : bytes := Eval vm_compute in pad 32 (str "seed").

(** Keys which come from a path secret, by computation *)
Fixpoint keyedb (cs : N) (k : nat) (t : ratchetTree) (l : list path) (s : bytes) : bool :=
  match l with
  | [] => true
  | a :: l' =>
    match at_path k t a, @nodeKeyPair toy cs s, @deriveSecret toy cs s (str "path") with
    | Some n, Ok (pub, _), Ok s' => bytes_eqb pub (node_encryptionKey n) && keyedb cs k t l' s'
    | _, _, _ => false
    end
  end.
Lemma keyedb_ok cs k t l : forall s, keyedb cs k t l s = true -> @keyed_from toy cs k t l s.
Proof.
  induction l as [|a l IH]; intros s H; cbn [keyed_from keyedb] in *; [exact I|].
  destruct (at_path k t a) as [n|]; [|discriminate]. destruct (nodeKeyPair cs s) as [[pub priv]| | |] eqn:E; try discriminate.
  destruct (deriveSecret cs s (str "path")) as [s'| | |] eqn:E2; try discriminate. apply andb_true_iff in H. destruct H as [H1 H2]. apply bytes_eqb_true in H1. subst pub.
  apply nextSecret in E2. subst s'. split; [|apply IH; exact H2].
  exists n, priv. split; [reflexivity|]. apply node_keys_iff. exact (rbind_ok _ _ _ E).
Qed.

Definition joined52 (t : ratchetTree) : group := getOr noGroup (@groupFromSecrets toy (w52 t None) dave (mkGroupSecrets (zeros 32) None []) None [] clock).

Lemma path_secret_refused : exists (C : crypto) w kpp j p now g0 gi k a b s1 s2 e,
  crypto_ok C /\ generated 1 kpp /\
  groupFromSecrets w kpp (mkGroupSecrets j None []) None [] now = Ok g0 /\ decryptGroupInfo w j (gr_pskSecret g0) = Ok gi /\
  shaped k (gr_value g0) /\ gr_myLeafIndex g0 < leaf_count k /\ gi_signer gi < leaf_count k /\
  leafPath k (gr_myLeafIndex g0) = a ++ b :: s1 /\ leafPath k (gi_signer gi) = a ++ negb b :: s2 /\
  keyed_from (gc_cipherSuite (gr_context g0)) k (gr_value g0) (nonblank k (gr_value g0) (a :: proper_ancestors a)) p /\
  groupFromSecrets w kpp (mkGroupSecrets j (Some p) []) None [] now = Err e.
Proof.
  exists toy, (w52 t52' None), dave, (zeros 32), seed52, clock, (joined52 t52'), (gi52 t52'), 3%nat, [false; false], true, [], [], "mls: node public key mismatch"%string.
  splits.
  - exact toy_ok.
  - exact dave_generated.
  - vm_compute. reflexivity.
  - vm_compute. reflexivity.
  - apply shapedb_ok; [unfold fits; lia|vm_compute; reflexivity].
  - vm_compute. reflexivity.
  - vm_compute. reflexivity.
  - vm_compute. reflexivity.
  - vm_compute. reflexivity.
  - apply keyedb_ok. vm_compute. reflexivity.
  - vm_compute. reflexivity.
Qed.

(** Without Bob, the node above the common ancestor of Dave and Alice is not in
    the path of Alice. *)
Definition t52b : ratchetTree := Eval vm_compute in
  [leafOf alice; None; leafOf dave; None; None; None; None; None; leafOf carol; None; None; None; None; None; None].
Definition t52b' : ratchetTree := Eval vm_compute in snd (madePath t52b).
Lemma path_secret_panics : exists (C : crypto) w kpp j p now g0 gi k a b s1 s2 e,
  crypto_ok C /\ generated 1 kpp /\
  groupFromSecrets w kpp (mkGroupSecrets j None []) None [] now = Ok g0 /\ decryptGroupInfo w j (gr_pskSecret g0) = Ok gi /\
  shaped k (gr_value g0) /\ gr_myLeafIndex g0 < leaf_count k /\ gi_signer gi < leaf_count k /\
  leafPath k (gr_myLeafIndex g0) = a ++ b :: s1 /\ leafPath k (gi_signer gi) = a ++ negb b :: s2 /\
  keyed_from (gc_cipherSuite (gr_context g0)) k (gr_value g0) (nonblank k (gr_value g0) (a :: proper_ancestors a)) p /\
  groupFromSecrets w kpp (mkGroupSecrets j (Some p) []) None [] now = Panic e.
Proof.
  exists toy, (w52 t52b' None), dave, (zeros 32), seed52, clock, (joined52 t52b'), (gi52 t52b'), 3%nat, [false; false], true, [], [], "nil pointer dereference"%string.
  splits.
  - exact toy_ok.
  - exact dave_generated.
  - vm_compute. reflexivity.
  - vm_compute. reflexivity.
  - apply shapedb_ok; [unfold fits; lia|vm_compute; reflexivity].
  - vm_compute. reflexivity.
  - vm_compute. reflexivity.
  - vm_compute. reflexivity.
  - vm_compute. reflexivity.
  - apply keyedb_ok. vm_compute. reflexivity.
  - vm_compute. reflexivity.
Qed.

(** In a smaller tree Dave joins. *)
Definition t52c : ratchetTree := Eval vm_compute in [leafOf alice; None; leafOf dave; None; leafOf carol; None; None].
Definition t52c' : ratchetTree := Eval vm_compute in snd (madePath t52c).
Lemma path_secret_example :
  groupFromSecrets (C := toy) (w52 t52c' None) dave (mkGroupSecrets (zeros 32) None []) None [] clock = Ok (joined52 t52c') /\
  decryptGroupInfo (C := toy) (w52 t52c' None) (zeros 32) (gr_pskSecret (joined52 t52c')) = Ok (gi52 t52c') /\
  shaped 2 (gr_value (joined52 t52c')) /\
  leafPath 2 (gr_myLeafIndex (joined52 t52c')) = [false] ++ true :: [] /\ leafPath 2 (gi_signer (gi52 t52c')) = [false] ++ negb true :: [] /\
  @keyed_from toy (gc_cipherSuite (gr_context (joined52 t52c'))) 2 (gr_value (joined52 t52c')) ([false] :: proper_ancestors [false]) seed52.
Proof.
  splits.
  - vm_compute. reflexivity.
  - vm_compute. reflexivity.
  - apply shapedb_ok; [unfold fits; lia|vm_compute; reflexivity].
  - vm_compute. reflexivity.
  - vm_compute. reflexivity.
  - apply keyedb_ok. vm_compute. reflexivity.
Qed.
Definition joinedWith : group := getOr noGroup (@groupFromWelcome toy (w52 t52c' (Some seed52)) dave clock).
Lemma joiner_example : exists ref s, crypto_ok toy /\ groupFromWelcome (C := toy) (w52 t52c' (Some seed52)) dave clock = Ok joinedWith /\
  keyPackageRef (C := toy) (kpp_public dave) = Ok ref /\ decryptGroupSecrets (C := toy) (w52 t52c' (Some seed52)) ref (kpp_initKey dave) = Ok s /\ gs_pathSecret s <> None.
Proof.
  exists (getOr [] (@keyPackageRef toy (kpp_public dave))), (mkGroupSecrets (zeros 32) (Some seed52) []). splits.
  - exact toy_ok.
  - vm_compute. reflexivity.
  - vm_compute. reflexivity.
  - vm_compute. reflexivity.
  - discriminate.
Qed.
