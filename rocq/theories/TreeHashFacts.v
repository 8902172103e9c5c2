(** The model's tree hash is the one of the specification, and binds. *)
From Verif Require Export SpecTreeHash TreeOpFacts ResolveFacts ScheduleFacts.

Lemma existsb_memN x l : existsb (N.eqb x) l = memN x l.
Proof. reflexivity. Qed.

Lemma leafIndex_leaf k p : fits k -> length p = k -> leafIndexOf (number k p) = Some (val p).
Proof.
  intros Hk Hp. unfold leafIndexOf. rewrite (path_isLeaf k p) by (unfold in_tree; lia). rewrite Hp, Nat.eqb_refl.
  destruct (leafPath_onto k p Hp) as [E H]. rewrite E at 1. rewrite leafPath_number by assumption.
  f_equal. rewrite N.shiftr_div_pow2. change (2 ^ 1) with 2. rewrite N.mul_comm. now apply N.div_mul.
Qed.
Lemma leafIndex_inner k p : fits k -> (length p < k)%nat -> leafIndexOf (number k p) = None.
Proof.
  intros Hk Hp. unfold leafIndexOf. rewrite (path_isLeaf k p) by (unfold in_tree; lia).
  now rewrite (proj2 (Nat.eqb_neq _ _)) by lia.
Qed.

Lemma writeAll_u32_len l e : writeAll addUint32 l = Ok e -> lenN e = 4 * lenN l.
Proof.
  revert e. induction l as [|a l IH]; intros e H; cbn [writeAll] in H.
  - apply Ok_inj in H. now subst.
  - apply wapp_ok in H. destruct H as (x & y & X & Y & ->). unfold addUint32 in X. apply Ok_inj in X. subst x.
    rewrite lenN_app, lenN_cons', lenN_be, (IH _ Y). lia.
Qed.
Lemma writeAll_u32_ok l : exists e, writeAll addUint32 l = Ok e.
Proof. induction l as [|a l (e & IH)]; [eexists; reflexivity|]. cbn [writeAll]. rewrite IH. eexists; reflexivity. Qed.
Lemma lenN_filter {A} f (l : list A) : lenN (filter f l) <= lenN l.
Proof. induction l as [|a l IH]; [reflexivity|]. cbn [filter]. destruct (f a); rewrite ?lenN_cons'; lia. Qed.

Lemma writeVector_u32_ok l : 4 * lenN l < 2 ^ 30 -> exists e, writeVector addUint32 l = Ok e.
Proof.
  intros H. unfold writeVector. destruct (writeAll_u32_ok l) as (e & E). rewrite E.
  destruct (writeOpaqueVec_bound e) as (p & _ & ->); [|eauto]. rewrite (writeAll_u32_len _ _ E). assumption.
Qed.
Lemma writeVector_u32_len l e : writeVector addUint32 l = Ok e -> 4 * lenN l < 2 ^ 30.
Proof.
  unfold writeVector. destruct (writeAll addUint32 l) as [x| | |] eqn:E; try discriminate. intros H.
  apply writeOpaqueVec_ok in H. destruct H as (H & _).
  now rewrite (writeAll_u32_len _ _ E) in H.
Qed.

(** A parent node can still be encoded with fewer unmerged leaves. *)
Lemma putParentNode_filter pn f e : putParentNode pn = Ok e ->
  exists e', putParentNode (mkParentNode (pn_encryptionKey pn) (pn_parentHash pn) (filter f (pn_unmergedLeaves pn))) = Ok e'.
Proof.
  unfold putParentNode. cbn [pn_encryptionKey pn_parentHash pn_unmergedLeaves]. intros H.
  apply wapp_ok in H. destruct H as (x & y & X & Y & ->). apply wapp_ok in Y. destruct Y as (y' & z & Y & Z & ->).
  rewrite X, Y. apply writeVector_u32_len in Z.
  destruct (writeVector_u32_ok (filter f (pn_unmergedLeaves pn))) as (e' & ->).
  - pose proof (lenN_filter f (pn_unmergedLeaves pn)). lia.
  - eexists; reflexivity.
Qed.

Lemma writeVector_u32_nc l : no_crash (writeVector addUint32 l).
Proof. unfold writeVector. destruct (writeAll_u32_ok l) as (e & ->). apply writeOpaqueVec_no_crash. Qed.
Lemma putParentNode_nc pn : no_crash (putParentNode pn).
Proof. unfold putParentNode. repeat apply wapp_no_crash; auto using writeOpaqueVec_no_crash, writeVector_u32_nc. Qed.

Section WithCrypto.
Context {C : crypto}.

Lemma tree_hash_eq cs t x ex : computeTreeHash cs t x ex = treeHashLoop 32 cs t ex x.
Proof. reflexivity. Qed.

Lemma hashSum_ok cs d m : cipherSuiteDescriptions cs = Some d -> hashSum cs m = Ok (answer (QHash (hashOf cs) m)).
Proof. intros H. unfold hashSum, describe. rewrite (hashOf_some _ _ H), H. reflexivity. Qed.

(** One step of the recursion on a shaped tree *)
Lemma treeHashLoop_leaf k t cs ex p fuel : shaped k t -> length p = k ->
  treeHashLoop fuel cs t ex (number k p) =
  (let! input := putLeafNodeHashInput (val p) (shownLeaf k t ex p) in hashSum cs input).
Proof.
  intros [F Sh] Hp. assert (Hin : in_tree k p) by (unfold in_tree; lia).
  assert (E : forall f, treeHashLoop f cs t ex (number k p) =
    let! n := getN t (number k p) in
    match leafIndexOf (number k p) with
    | Some li =>
      let! l := match n with
              | Some (NLeaf l) => Ok (if memN li ex then None else Some l)
              | Some (NParent _) => if memN li ex then Ok None else Panic "unreachable"
              | None => Ok None
              end in
      let! input := putLeafNodeHashInput li l in
      hashSum cs input
    | None => treeHashLoop f cs t ex (number k p)
    end).
  { intros f. rewrite (leafIndex_leaf k p (proj1 F) Hp). destruct f; cbn [treeHashLoop]; rewrite (leafIndex_leaf k p (proj1 F) Hp); reflexivity. }
  rewrite E, (at_path_getN k t p F Hin). cbn [rbind]. rewrite (leafIndex_leaf k p (proj1 F) Hp).
  unfold shownLeaf. rewrite existsb_memN. destruct (at_path k t p) as [[l|pn]|] eqn:A.
  - cbn [rbind]. now destruct (memN (val p) ex).
  - specialize (Sh p _ Hin A). cbn in Sh. lia.
  - cbn [rbind]. now destruct (memN (val p) ex).
Qed.

Lemma treeHashLoop_parent k t cs ex p fuel : shaped k t -> (length p < k)%nat ->
  treeHashLoop (S fuel) cs t ex (number k p) =
  (let! l := treeHashLoop fuel cs t ex (number k (p ++ [false])) in
   let! r := treeHashLoop fuel cs t ex (number k (p ++ [true])) in
   let! input := putParentNodeHashInput (shownParent k t ex p) l r in hashSum cs input).
Proof.
  intros [F Sh] Hp. assert (Hin : in_tree k p) by (unfold in_tree; lia).
  cbn [treeHashLoop]. rewrite (at_path_getN k t p F Hin). cbn [rbind].
  rewrite (leafIndex_inner k p (proj1 F) Hp), (path_children k (proj1 F) p Hp).
  apply rbind_ext. intros l _. apply rbind_ext. intros r _. unfold shownParent.
  destruct (at_path k t p) as [[lf|pn]|] eqn:A; [|reflexivity..].
  specialize (Sh p _ Hin A). cbn in Sh. lia.
Qed.

Lemma treeHashLoop_value k t cs ex : shaped k t -> forall d p fuel h, in_tree k p -> (d = k - length p)%nat -> (d <= fuel)%nat ->
  treeHashLoop fuel cs t ex (number k p) = Ok h -> h = tree_hash cs k t ex d p.
Proof.
  intros Sh. induction d as [|d IH]; intros p fuel h Hp Hd Hf H.
  - rewrite treeHashLoop_leaf in H by (auto; unfold in_tree in Hp; lia). apply rbind_ok in H. destruct H as (i & Hi & H).
    apply hashSum_some in H. cbn [tree_hash]. rewrite <- (writes_leafHashInput _ _ _ Hi). exact H.
  - destruct fuel as [|fuel]; [lia|]. assert (Hlt : (length p < k)%nat) by lia.
    rewrite treeHashLoop_parent in H by auto.
    apply rbind_ok in H. destruct H as (l & Hl & H). apply rbind_ok in H. destruct H as (r & Hr & H).
    apply rbind_ok in H. destruct H as (i & Hi & H). apply hashSum_some in H.
    apply IH in Hl; [|now apply snoc_in|rewrite app_length; cbn; lia|lia].
    apply IH in Hr; [|now apply snoc_in|rewrite app_length; cbn; lia|lia].
    cbn [tree_hash]. rewrite <- Hl, <- Hr, <- (writes_parentHashTreeInput _ _ _ _ Hi). exact H.
Qed.

Lemma hash_len cs m : crypto_ok C -> lenN (answer (QHash (hashOf cs) m)) < 2 ^ 30.
Proof. intros OK. cbn [answer]. rewrite (ok_hash C OK). destruct (hashOf cs); reflexivity. Qed.
Lemma tree_hash_len cs k t ex d p : crypto_ok C -> lenN (tree_hash cs k t ex d p) < 2 ^ 30.
Proof. intros OK. destruct d; cbn [tree_hash]; now apply hash_len. Qed.

(** It is defined when the nodes below can be encoded. *)
Lemma putLeafHashInput_ok li o : (forall l, o = Some l -> exists e, putLeafNode l = Ok e) -> exists e, putLeafNodeHashInput li o = Ok e.
Proof.
  intros H. unfold putLeafNodeHashInput. destruct o as [l|]; [|eexists; reflexivity].
  destruct (H l eq_refl) as (e & ->). eexists; reflexivity.
Qed.
Lemma putParentHashInput2_ok o l r : (forall n, o = Some n -> exists e, putParentNode n = Ok e) -> lenN l < 2 ^ 30 -> lenN r < 2 ^ 30 ->
  exists e, putParentNodeHashInput o l r = Ok e.
Proof.
  intros H Hl Hr. unfold putParentNodeHashInput.
  destruct (writeOpaqueVec_bound l Hl) as (x & _ & ->), (writeOpaqueVec_bound r Hr) as (y & _ & ->).
  destruct o as [n|]; [destruct (H n eq_refl) as (e & ->)|]; eexists; reflexivity.
Qed.

Lemma treeHashLoop_defined k t cs ex d0 : shaped k t -> crypto_ok C -> cipherSuiteDescriptions cs = Some d0 ->
  forall d p fuel, in_tree k p -> (d = k - length p)%nat -> (d <= fuel)%nat ->
  (forall q n, in_tree k q -> ancestor_or_self p q -> at_path k t q = Some n -> exists e, putNode n = Ok e) ->
  treeHashLoop fuel cs t ex (number k p) = Ok (tree_hash cs k t ex d p).
Proof.
  intros Sh OK Hd0. induction d as [|d IH]; intros p fuel Hp Hd Hf He.
  - rewrite treeHashLoop_leaf by (auto; unfold in_tree in Hp; lia).
    destruct (putLeafHashInput_ok (val p) (shownLeaf k t ex p)) as (e & E).
    { intros l. unfold shownLeaf. destruct (existsb _ _); [discriminate|].
      destruct (at_path k t p) as [[l'|]|] eqn:A; intros H; inversion H; subst.
      destruct (He p _ Hp (aos_refl p) A) as (e & E). cbn [putNode] in E. apply wapp_ok in E. destruct E as (x & y & _ & Y & _). eauto. }
    cbn [tree_hash]. rewrite E, <- (writes_leafHashInput _ _ _ E). cbn [rbind]. eapply hashSum_ok; eauto.
  - destruct fuel as [|fuel]; [lia|]. assert (Hlt : (length p < k)%nat) by lia.
    rewrite treeHashLoop_parent by auto.
    rewrite (IH (p ++ [false])); [|now apply snoc_in|rewrite app_length; cbn; lia|lia|
      intros; eapply He; eauto; eapply aos_trans; eauto; apply aos_snoc].
    cbn [rbind].
    rewrite (IH (p ++ [true])); [|now apply snoc_in|rewrite app_length; cbn; lia|lia|
      intros; eapply He; eauto; eapply aos_trans; eauto; apply aos_snoc].
    cbn [rbind].
    edestruct (putParentHashInput2_ok (shownParent k t ex p)) as (e & E); [|apply (tree_hash_len cs k t ex d (p ++ [false]) OK)|apply (tree_hash_len cs k t ex d (p ++ [true]) OK)|].
    { intros n. unfold shownParent. destruct (at_path k t p) as [[|n']|] eqn:A; intros H; try discriminate. apply (f_equal (fun o => match o with Some x => x | None => n end)) in H. cbn in H. subst n.
      destruct (He p _ Hp (aos_refl p) A) as (e & E). cbn [putNode] in E. apply wapp_ok in E. destruct E as (x & y & _ & Y & _).
      eapply putParentNode_filter; eauto. }
    cbn [tree_hash]. rewrite E, <- (writes_parentHashTreeInput _ _ _ _ E). cbn [rbind]. eapply hashSum_ok; eauto.
Qed.

Lemma computeTreeHash_value k t cs ex p h : shaped k t -> in_tree k p ->
  computeTreeHash cs t (number k p) ex = Ok h -> h = tree_hash cs k t ex (k - length p) p.
Proof.
  intros Sh Hp. rewrite tree_hash_eq. apply treeHashLoop_value; auto. destruct Sh as [[Hk _] _]. unfold fits in Hk. lia.
Qed.
Lemma computeTreeHash_defined k t cs ex p d : shaped k t -> crypto_ok C -> cipherSuiteDescriptions cs = Some d -> in_tree k p ->
  (forall q n, in_tree k q -> ancestor_or_self p q -> at_path k t q = Some n -> exists e, putNode n = Ok e) ->
  computeTreeHash cs t (number k p) ex = Ok (tree_hash cs k t ex (k - length p) p).
Proof.
  intros Sh OK Hd Hp He. rewrite tree_hash_eq. eapply treeHashLoop_defined; eauto. destruct Sh as [[Hk _] _]. unfold fits in Hk. lia.
Qed.

(** It only depends on the nodes below. *)
Lemma tree_hash_ext cs k t1 t2 ex : forall d p, in_tree k p -> d = (k - length p)%nat ->
  (forall q, in_tree k q -> ancestor_or_self p q -> at_path k t1 q = at_path k t2 q) ->
  tree_hash cs k t1 ex d p = tree_hash cs k t2 ex d p.
Proof.
  induction d as [|d IH]; intros p Hp Hd H; cbn [tree_hash].
  - unfold shownLeaf. now rewrite (H p Hp (aos_refl p)).
  - assert (Hlt : (length p < k)%nat) by lia. unfold shownParent. rewrite (H p Hp (aos_refl p)).
    rewrite (IH (p ++ [false])), (IH (p ++ [true])); [reflexivity|..];
      try (now apply snoc_in); try (rewrite app_length; cbn; lia); intros; apply H; auto; eapply aos_trans; eauto; apply aos_snoc.
Qed.

Lemma blank_below_spec k t : forall d p, in_tree k p -> d = (k - length p)%nat ->
  blank_below k t d p = true <-> forall q, in_tree k q -> ancestor_or_self p q -> at_path k t q = None.
Proof.
  induction d as [|d IH]; intros p Hp Hd; cbn [blank_below]; destruct (at_path k t p) as [n|] eqn:E.
  1, 3: split; [discriminate|intros H; rewrite H in E; [discriminate|assumption|apply aos_refl]].
  - split; [|reflexivity]. intros _ q Hq Ha. apply aos_same in Ha as ->; auto. apply aos_length in Ha. unfold in_tree in *. lia.
  - assert (Hlt : (length p < k)%nat) by lia.
    rewrite andb_true_iff, (IH (p ++ [false])), (IH (p ++ [true]));
      try (now apply snoc_in); try (rewrite app_length; cbn; lia). split.
    + intros [H1 H2] q Hq Ha. apply aos_child in Ha. destruct Ha as [->|([|] & Ha)]; auto.
    + intros H. split; intros q Hq Ha; apply H; auto; eapply aos_trans; eauto; apply aos_snoc.
Qed.

(** ** Binding *)
Lemma putLeafHashInput_inj i1 l1 i2 l2 e : u32 i1 -> u32 i2 ->
  (forall l, l1 = Some l -> wf_leafNode l) -> (forall l, l2 = Some l -> wf_leafNode l) ->
  putLeafNodeHashInput i1 l1 = Ok e -> putLeafNodeHashInput i2 l2 = Ok e -> i1 = i2 /\ l1 = l2.
Proof.
  intros U1 U2 W1 W2 H1 H2. unfold putLeafNodeHashInput in *.
  apply wapp_ok in H1, H2. destruct H1 as (a1 & b1 & A1 & B1 & ->), H2 as (a2 & b2 & A2 & B2 & E).
  destruct (u8_app_inj 1 1 _ _ _ _ ltac:(reflexivity) ltac:(reflexivity) A1 A2 E) as [_ ->].
  apply wapp_ok in B1, B2. destruct B1 as (x1 & y1 & X1 & Y1 & ->), B2 as (x2 & y2 & X2 & Y2 & E2).
  destruct (u32_app_inj _ _ _ _ _ _ U1 U2 X1 X2 E2) as [-> ->]. split; [reflexivity|].
  assert (O : forall o e', (forall l, o = Some l -> wf_leafNode l) ->
      match o with Some n => writeOptional true +++ putLeafNode n | None => writeOptional false end = Ok e' ->
      (let! has := fst (readOptional e') in Ok (has, snd (readOptional e'))) = Ok (match o with Some _ => true | None => false end, match o with Some n => enc_leafNode n | None => [] end)).
  { intros o e' W H. destruct o as [n|].
    - apply wapp_ok in H. destruct H as (u & v & U & V & ->). rewrite (readOptional_RT true u v I U). cbn. now rewrite (writes_leafNode _ _ V).
    - pose proof (readOptional_RT false e' [] I H) as R. rewrite app_nil_r in R. rewrite R. reflexivity. }
  pose proof (O _ _ W1 Y1) as O1. pose proof (O _ _ W2 Y2) as O2. rewrite O1 in O2. clear O O1.
  destruct l1 as [l1|], l2 as [l2|]; try discriminate O2; [|reflexivity].
  apply wapp_ok in Y1, Y2. destruct Y1 as (? & e1 & _ & P1 & _), Y2 as (? & e2 & _ & P2 & _).
  rewrite <- (writes_leafNode _ _ P1), <- (writes_leafNode _ _ P2) in O2. apply Ok_inj in O2. injection O2 as O2. subst e2. f_equal.
  destruct (app_inj_by _ _ _ leafNode_RT l1 l2 _ _ [] [] (W1 _ eq_refl) (W2 _ eq_refl) P1 P2 eq_refl). assumption.
Qed.

Lemma putParentHashInput2_inj n1 l1 r1 n2 l2 r2 e :
  (forall n, n1 = Some n -> wf_parentNode n) -> (forall n, n2 = Some n -> wf_parentNode n) ->
  putParentNodeHashInput n1 l1 r1 = Ok e -> putParentNodeHashInput n2 l2 r2 = Ok e -> n1 = n2 /\ l1 = l2 /\ r1 = r2.
Proof.
  intros W1 W2 H1 H2. unfold putParentNodeHashInput in *.
  apply wapp_ok in H1, H2. destruct H1 as (a1 & b1 & A1 & B1 & ->), H2 as (a2 & b2 & A2 & B2 & E).
  destruct (u8_app_inj 2 2 _ _ _ _ ltac:(reflexivity) ltac:(reflexivity) A1 A2 E) as [_ ->].
  apply wapp_ok in B1, B2. destruct B1 as (x1 & y1 & X1 & Y1 & ->), B2 as (x2 & y2 & X2 & Y2 & E2).
  assert (G : n1 = n2 /\ y1 = y2).
  { destruct n1 as [n1|], n2 as [n2|].
    - apply wapp_ok in X1, X2. destruct X1 as (u1 & v1 & U1 & V1 & ->), X2 as (u2 & v2 & U2 & V2 & ->). rewrite <- !app_assoc in E2.
      destruct (app_inj_by _ _ _ readOptional_RT true true _ _ _ _ I I U1 U2 E2) as [_ E3].
      destruct (app_inj_by _ _ _ parentNode_RT n1 n2 _ _ _ _ (W1 _ eq_refl) (W2 _ eq_refl) V1 V2 E3) as [-> ->]. auto.
    - apply wapp_ok in X1. destruct X1 as (u1 & v1 & U1 & V1 & ->). rewrite <- app_assoc in E2.
      destruct (app_inj_by _ _ _ readOptional_RT true false _ _ _ _ I I U1 X2 E2) as [? _]. discriminate.
    - apply wapp_ok in X2. destruct X2 as (u1 & v1 & U1 & V1 & ->). rewrite <- app_assoc in E2.
      destruct (app_inj_by _ _ _ readOptional_RT false true _ _ _ _ I I X1 U1 E2) as [? _]. discriminate.
    - destruct (app_inj_by _ _ _ readOptional_RT false false _ _ _ _ I I X1 X2 E2) as [_ ->]. auto. }
  destruct G as [-> ->]. split; [reflexivity|].
  apply wapp_ok in Y1, Y2. destruct Y1 as (p1 & q1 & P1 & Q1 & ->), Y2 as (p2 & q2 & P2 & Q2 & E4).
  destruct (opaque_app_inj _ _ _ _ _ _ P1 P2 E4) as [-> ->].
  destruct (opaque_app_inj _ _ _ _ [] [] Q1 Q2 eq_refl) as [-> _]. auto.
Qed.

Lemma leaf_parent_input_differ i o n l r e : putLeafNodeHashInput i o = Ok e -> putParentNodeHashInput n l r = Ok e -> False.
Proof.
  intros H1 H2. unfold putLeafNodeHashInput, putParentNodeHashInput in *.
  apply wapp_ok in H1, H2. destruct H1 as (a1 & b1 & A1 & B1 & ->), H2 as (a2 & b2 & A2 & B2 & E).
  destruct (u8_app_inj 1 2 _ _ _ _ ltac:(reflexivity) ltac:(reflexivity) A1 A2 E) as [? _]. discriminate.
Qed.

Lemma wf_at_path k t p n : wf_nodes t -> at_path k t p = Some n -> wf_node n.
Proof.
  unfold at_path, wf_nodes. intros W H. destruct (nth_error t _) as [o|] eqn:E; [subst|discriminate].
  apply nth_error_In in E. rewrite Forall_forall in W. exact (W _ E).
Qed.
Lemma shownLeaf_wf k t ex p l : wf_nodes t -> shownLeaf k t ex p = Some l -> wf_leafNode l.
Proof.
  unfold shownLeaf. intros W. destruct (existsb _ _); [discriminate|]. destruct (at_path k t p) as [[l'|]|] eqn:E; intros H; inversion H; subst.
  exact (wf_at_path _ _ _ _ W E).
Qed.
Lemma Forall_filter {A} (P : A -> Prop) f l : Forall P l -> Forall P (filter f l).
Proof. induction 1; cbn [filter]; [constructor|]. destruct (f x); auto. Qed.
Lemma shownParent_wf k t ex p n : wf_nodes t -> shownParent k t ex p = Some n -> wf_parentNode n.
Proof.
  unfold shownParent. intros W. destruct (at_path k t p) as [[l'|n']|] eqn:E; intros H; try discriminate.
  assert (Hn : n = mkParentNode (pn_encryptionKey n') (pn_parentHash n') (filter (fun li => negb (existsb (N.eqb li) ex)) (pn_unmergedLeaves n'))) by congruence.
  subst n. apply (wf_at_path _ _ _ _ W) in E. unfold wf_node, wf_parentNode in *. cbn [pn_unmergedLeaves]. now apply Forall_filter.
Qed.
Lemma filter_all {A} f (l : list A) : (forall a, In a l -> f a = true) -> filter f l = l.
Proof. induction l as [|a l IH]; intros H; cbn [filter]; [reflexivity|]. rewrite H by now left. f_equal. apply IH. intros; apply H; now right. Qed.
Lemma shownLeaf_at k t p : shaped k t -> length p = k -> at_path k t p = option_map NLeaf (shownLeaf k t [] p).
Proof.
  intros [F Sh] Hp. unfold shownLeaf. cbn [existsb]. destruct (at_path k t p) as [[|n]|] eqn:E; try reflexivity.
  specialize (Sh p _ ltac:(unfold in_tree; lia) E). cbn in Sh. lia.
Qed.
Lemma shownParent_at k t p : shaped k t -> (length p < k)%nat -> at_path k t p = option_map NParent (shownParent k t [] p).
Proof.
  intros [F Sh] Hp. unfold shownParent. destruct (at_path k t p) as [[|n]|] eqn:E; try reflexivity.
  - specialize (Sh p _ ltac:(unfold in_tree; lia) E). cbn in Sh. lia.
  - rewrite filter_all by reflexivity. now destruct n.
Qed.
Lemma val_u32 k p : fits k -> length p = k -> u32 (val p).
Proof. intros Hk Hp. destruct (leafPath_onto k p Hp) as [_ H]. pose proof (leaf_count_31 k Hk). unfold u32. lia. Qed.

Lemma tree_binding cs k1 t1 k2 t2 : shaped k1 t1 -> shaped k2 t2 -> wf_nodes t1 -> wf_nodes t2 ->
  forall d1 d2 p1 p2 f1 f2 h,
  in_tree k1 p1 -> in_tree k2 p2 -> (d1 = k1 - length p1)%nat -> (d2 = k2 - length p2)%nat -> (d1 <= f1)%nat -> (d2 <= f2)%nat ->
  treeHashLoop f1 cs t1 [] (number k1 p1) = Ok h -> treeHashLoop f2 cs t2 [] (number k2 p2) = Ok h ->
  (d1 = d2 /\ forall s, (length s <= d1)%nat -> at_path k1 t1 (p1 ++ s) = at_path k2 t2 (p2 ++ s)) \/
  collide (treeQueries cs k1 t1 d1 p1) (treeQueries cs k2 t2 d2 p2).
Proof.
  intros S1 S2 W1 W2. induction d1 as [|d1 IH]; intros d2 p1 p2 f1 f2 h I1 I2 D1 D2 F1 F2 H1 H2.
  - rewrite treeHashLoop_leaf in H1 by (auto; unfold in_tree in I1; lia). apply rbind_ok in H1. destruct H1 as (e1 & E1 & H1).
    apply hashSum_some in H1. destruct d2 as [|d2].
    + rewrite treeHashLoop_leaf in H2 by (auto; unfold in_tree in I2; lia). apply rbind_ok in H2. destruct H2 as (e2 & E2 & H2).
      apply hashSum_some in H2. cbn [treeQueries]. rewrite <- (writes_leafHashInput _ _ _ E1), <- (writes_leafHashInput _ _ _ E2).
      destruct (equal_or_collision (QHash (hashOf cs) e1) (QHash (hashOf cs) e2)) as [E|HC]; [reflexivity|congruence| |].
      * injection E as E. subst e2. left. split; [reflexivity|]. intros s Hs. destruct s; [|cbn in Hs; lia]. rewrite !app_nil_r.
        unfold in_tree in *. assert (L1 : length p1 = k1) by lia. assert (L2 : length p2 = k2) by lia.
        rewrite (shownLeaf_at k1), (shownLeaf_at k2) by auto. f_equal.
        refine (proj2 (putLeafHashInput_inj _ _ _ _ _ _ _ _ _ E1 E2)).
        -- apply (val_u32 k1); auto. apply S1.
        -- apply (val_u32 k2); auto. apply S2.
        -- intros l. now apply shownLeaf_wf.
        -- intros l. now apply shownLeaf_wf.
      * right. exists (QHash (hashOf cs) e1), (QHash (hashOf cs) e2). cbn; auto.
    + destruct f2 as [|f2]; [lia|]. rewrite treeHashLoop_parent in H2 by (auto; lia).
      apply rbind_ok in H2. destruct H2 as (l & Hl & H2). apply rbind_ok in H2. destruct H2 as (r & Hr & H2). apply rbind_ok in H2. destruct H2 as (e2 & E2 & H2).
      apply hashSum_some in H2. right. exists (QHash (hashOf cs) e1), (QHash (hashOf cs) e2). cbn [treeQueries]. rewrite <- (writes_leafHashInput _ _ _ E1).
      apply treeHashLoop_value with (d := d2) in Hl; [|assumption|apply snoc_in; lia|rewrite app_length; cbn; lia|lia].
      apply treeHashLoop_value with (d := d2) in Hr; [|assumption|apply snoc_in; lia|rewrite app_length; cbn; lia|lia].
      rewrite <- Hl, <- Hr, <- (writes_parentHashTreeInput _ _ _ _ E2). split; [now left|]. split; [now left|]. split; [reflexivity|]. split; [|congruence].
      intros E. injection E as E. subst e2. eapply leaf_parent_input_differ; eauto.
  - destruct f1 as [|f1]; [lia|]. rewrite treeHashLoop_parent in H1 by (auto; lia).
    apply rbind_ok in H1. destruct H1 as (l1 & Hl1 & H1). apply rbind_ok in H1. destruct H1 as (r1 & Hr1 & H1). apply rbind_ok in H1. destruct H1 as (e1 & E1 & H1).
    apply hashSum_some in H1.
    assert (Vl1 := Hl1). assert (Vr1 := Hr1).
    apply treeHashLoop_value with (d := d1) in Vl1; [|assumption|apply snoc_in; lia|rewrite app_length; cbn; lia|lia].
    apply treeHashLoop_value with (d := d1) in Vr1; [|assumption|apply snoc_in; lia|rewrite app_length; cbn; lia|lia].
    destruct d2 as [|d2].
    + rewrite treeHashLoop_leaf in H2 by (auto; unfold in_tree in I2; lia). apply rbind_ok in H2. destruct H2 as (e2 & E2 & H2).
      apply hashSum_some in H2. right. exists (QHash (hashOf cs) e1), (QHash (hashOf cs) e2). cbn [treeQueries].
      rewrite <- Vl1, <- Vr1, <- (writes_parentHashTreeInput _ _ _ _ E1), <- (writes_leafHashInput _ _ _ E2). split; [now left|]. split; [now left|]. split; [reflexivity|]. split; [|congruence].
      intros E. injection E as E. subst e2. eapply leaf_parent_input_differ; eauto.
    + destruct f2 as [|f2]; [lia|]. rewrite treeHashLoop_parent in H2 by (auto; lia).
      apply rbind_ok in H2. destruct H2 as (l2 & Hl2 & H2). apply rbind_ok in H2. destruct H2 as (r2 & Hr2 & H2). apply rbind_ok in H2. destruct H2 as (e2 & E2 & H2).
      apply hashSum_some in H2.
      assert (Vl2 := Hl2). assert (Vr2 := Hr2).
      apply treeHashLoop_value with (d := d2) in Vl2; [|assumption|apply snoc_in; lia|rewrite app_length; cbn; lia|lia].
      apply treeHashLoop_value with (d := d2) in Vr2; [|assumption|apply snoc_in; lia|rewrite app_length; cbn; lia|lia].
      cbn [treeQueries]. rewrite <- Vl1, <- Vr1, <- Vl2, <- Vr2, <- (writes_parentHashTreeInput _ _ _ _ E1), <- (writes_parentHashTreeInput _ _ _ _ E2).
      destruct (equal_or_collision (QHash (hashOf cs) e1) (QHash (hashOf cs) e2)) as [E|HC]; [reflexivity|congruence| |].
      2: { right. exists (QHash (hashOf cs) e1), (QHash (hashOf cs) e2). split; [now left|]. split; [now left|]. assumption. }
      injection E as E. subst e2.
      destruct (putParentHashInput2_inj _ _ _ _ _ _ _ (fun n => shownParent_wf k1 t1 [] p1 n W1) (fun n => shownParent_wf k2 t2 [] p2 n W2) E1 E2) as (En & -> & ->).
      destruct (IH d2 (p1 ++ [false]) (p2 ++ [false]) f1 f2 l2) as [[Dl Gl]|HC];
        [apply snoc_in; lia|apply snoc_in; lia|rewrite app_length; cbn; lia|rewrite app_length; cbn; lia|lia|lia|assumption|assumption| |].
      2: { right. destruct HC as (q1 & q2 & A & B & HC). exists q1, q2. split; [|split; [|exact HC]]; right; apply in_app_iff; auto. }
      destruct (IH d2 (p1 ++ [true]) (p2 ++ [true]) f1 f2 r2) as [[Dr Gr]|HC];
        [apply snoc_in; lia|apply snoc_in; lia|rewrite app_length; cbn; lia|rewrite app_length; cbn; lia|lia|lia|assumption|assumption| |].
      2: { right. destruct HC as (q1 & q2 & A & B & HC). exists q1, q2. split; [|split; [|exact HC]]; right; apply in_app_iff; auto. }
      left. split; [congruence|]. intros [|b s] Hs.
      * rewrite !app_nil_r. rewrite (shownParent_at k1), (shownParent_at k2) by (auto; lia). now rewrite En.
      * cbn in Hs. change (b :: s) with ([b] ++ s). rewrite !app_assoc. destruct b; [apply Gr|apply Gl]; lia.
Qed.

Lemma rootTreeHash_eq cs k t : full k t -> computeRootTreeHash cs t = treeHashLoop 32 cs t [] (number k []).
Proof.
  intros F. unfold computeRootTreeHash. rewrite tree_hash_eq, (numLeaves_tree t k (proj1 F) (proj2 F)), (path_root k (proj1 F)). reflexivity.
Qed.

Theorem root_binding cs k1 t1 k2 t2 h : shaped k1 t1 -> shaped k2 t2 -> wf_nodes t1 -> wf_nodes t2 ->
  computeRootTreeHash cs t1 = Ok h -> computeRootTreeHash cs t2 = Ok h ->
  t1 = t2 \/ collide (rootQueries cs k1 t1) (rootQueries cs k2 t2).
Proof.
  intros S1 S2 W1 W2 H1 H2. rewrite (rootTreeHash_eq cs k1) in H1 by apply S1. rewrite (rootTreeHash_eq cs k2) in H2 by apply S2.
  destruct S1 as [[K1 L1] S1'] eqn:Q1. destruct S2 as [[K2 L2] S2'] eqn:Q2. clear Q1 Q2. unfold fits in *.
  destruct (tree_binding cs k1 t1 k2 t2) with (d1 := k1) (d2 := k2) (p1 := @nil bool) (p2 := @nil bool) (f1 := 32%nat) (f2 := 32%nat) (h := h) as [[-> G]|HC];
    try assumption; try (unfold in_tree; cbn; lia); try (split; [split; assumption|assumption]); auto.
  left. apply (full_ext k2); [split; assumption..|]. intros p Hp. exact (G p Hp).
Qed.
End WithCrypto.
