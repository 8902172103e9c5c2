(** The update paths of Sender.v are update paths in the sense of SpecPath.v. *)
From Verif Require Export PathFacts.

Lemma mapM_ok {A B} (f : A -> res B) : forall l r, mapM f l = Ok r <-> Forall2 (fun a b => f a = Ok b) l r.
Proof.
  induction l as [|a l IH]; intros r; cbn [mapM].
  - split; [intros H; apply Ok_inj in H; subst; constructor|intros H; inversion H; reflexivity].
  - split.
    + intros H. apply rbind_ok in H. destruct H as (b & E & H). apply rbind_ok in H. destruct H as (bs & E2 & H). apply Ok_inj in H. subst r.
      constructor; [assumption|]. now apply IH.
    + intros H. inversion H as [|? b ? bs E1 E2]. subst. rewrite E1. cbn [rbind]. rewrite (proj2 (IH bs) E2). reflexivity.
Qed.

Section WithCrypto.
Context {C : crypto}.

Lemma copathChild_ok k p a b r : fits k -> in_tree k p -> p = a ++ b :: r ->
  copathChild (number k p) (number k a) (map (number k) (proper_ancestors p)) = Ok (number k (a ++ [negb b])).
Proof.
  intros Hk Hp E. assert (Hlt : (length a < k)%nat) by (subst p; unfold in_tree in Hp; rewrite app_length in Hp; cbn in Hp; lia).
  unfold copathChild. rewrite (path_children k Hk a Hlt). f_equal.
  destruct (N.eqb_spec (number k (a ++ [false])) (number k p)) as [E0|N0]; cbn [orb].
  - apply number_inj in E0; [|now apply snoc_in|assumption]. rewrite E in E0. apply app_inv_head in E0. injection E0 as <- _. reflexivity.
  - destruct (memN _ _) eqn:M.
    + apply memN_dp in M; [|assumption|now apply snoc_in]. destruct M as (c & s & M). rewrite E, <- app_assoc in M. apply app_inv_head in M.
      injection M as -> _. reflexivity.
    + destruct b; [reflexivity|]. exfalso. destruct r as [|c r]; [subst p; now apply N0|].
      assert (above (a ++ [false]) p) by (exists c, r; rewrite <- app_assoc; exact E).
      apply (memN_dp k p (a ++ [false])) in H; [congruence|assumption|now apply snoc_in].
Qed.

Lemma pathChain_cons cs s n secrets z : pathChain cs s (S n) = Ok (secrets, z) ->
  exists s' r, secrets = s :: r /\ deriveSecret cs s (str "path") = Ok s' /\ pathChain cs s' n = Ok (r, z).
Proof.
  cbn [pathChain]. intros H. apply rbind_ok in H. destruct H as (s' & E & H). apply rbind_ok in H. destruct H as ([r z'] & E2 & H).
  apply Ok_inj in H. injection H as <- <-. eauto.
Qed.

Definition sealTo (cs : N) (t : ratchetTree) (raw s rnd : bytes) (x : N) : res hpkeCiphertext :=
  let! o := getN t x in
  match o with
  | None => Panic "blank node in resolution"
  | Some n =>
    let! (ko, ct) := encryptWithLabel cs (node_encryptionKey n) (str "UpdatePathNode") raw s rnd in
    Ok (mkHpkeCiphertext ko ct)
  end.
Lemma encrypt_unfold cs t ctx ex rnd x s : encryptPathSecret cs t ctx ex rnd x s =
  let! R := resolve t x in
  let! raw := putGroupContext ctx in
  mapM (sealTo cs t raw s rnd) (filter (fun x => negb (memN x ex)) R).
Proof. reflexivity. Qed.
Lemma encrypt_inv cs t ctx ex rnd x s cts R : resolve t x = Ok R -> encryptPathSecret cs t ctx ex rnd x s = Ok cts ->
  exists raw, putGroupContext ctx = Ok raw /\ Forall2 (fun x c => sealTo cs t raw s rnd x = Ok c) (filter (fun x => negb (memN x ex)) R) cts.
Proof.
  intros ER H. rewrite encrypt_unfold, ER in H. cbn [rbind] in H.
  apply rbind_ok in H. destruct H as (raw & Er & H). exists raw. split; [assumption|]. now apply mapM_ok.
Qed.
Lemma seal_all cs k t ctx new rnd raw s : full k t -> putGroupContext ctx = Ok raw ->
  forall R cts, (forall q, In q R -> in_tree k q) ->
  Forall2 (fun x c => sealTo cs t raw s rnd x = Ok c) (filter (fun x => negb (memN x (map (fun li => 2 * li) new))) (map (number k) R)) cts ->
  Forall2 (encrypted cs k t ctx s) (filter (fun q => negb (is_new k new q)) R) cts.
Proof.
  intros F Er. induction R as [|q R IH]; intros cts HR H; cbn [map filter] in *; [inversion H; constructor|].
  replace (memN (number k q) (map (fun li => 2 * li) new)) with (is_new k new q) in H.
  2: { unfold is_new, memN. clear. induction new as [|x new IHn]; [reflexivity|]. cbn [map existsb]. now rewrite IHn. }
  destruct (is_new k new q); cbn [negb] in *; [apply IH; auto; intros; apply HR; now right|].
  inversion H as [|? ct ? cts' E1 E2]. subst. constructor; [|apply IH; auto; intros; apply HR; now right].
  unfold sealTo in E1. rewrite (at_path_getN k) in E1 by (auto; apply HR; now left). cbn [rbind] in E1. destruct (at_path k t q) as [n|] eqn:En; [|discriminate].
  apply rbind_ok in E1. destruct E1 as ([ko ct'] & E1 & E). apply Ok_inj in E. subst ct. apply encrypted_iff. exists n, raw, rnd. auto.
Qed.
Lemma encrypt_ok cs k t ctx new rnd c s cts : full k t ->
  (forall q, In q (resolution k t (k - length c) c) -> in_tree k q) ->
  resolve t (number k c) = Ok (map (number k) (resolution k t (k - length c) c)) ->
  encryptPathSecret cs t ctx (map (fun li => 2 * li) new) rnd (number k c) s = Ok cts ->
  Forall2 (encrypted cs k t ctx s) (filter (fun q => negb (is_new k new q)) (resolution k t (k - length c) c)) cts.
Proof.
  intros F HR ER H. apply (encrypt_inv _ _ _ _ _ _ _ _ _ ER) in H. destruct H as (raw & Er & H). eapply seal_all; eauto.
Qed.

Definition makeNode (cs : N) (t : ratchetTree) (ctx : groupContext) (ex : list N) (rnd : bytes) (sender : N) (dp : list N)
    (p : N * (bytes * (bytes * bytes))) : res updatePathNode :=
  let '(x, (secret, (pub, _))) := p in
  let! c := copathChild sender x dp in
  let! cts := encryptPathSecret cs t ctx ex rnd c secret in
  Ok (mkUpdatePathNode pub cts).
Lemma makeNode_inv cs t ctx ex rnd sender dp x secret pub priv u : makeNode cs t ctx ex rnd sender dp (x, (secret, (pub, priv))) = Ok u ->
  exists c, copathChild sender x dp = Ok c /\ encryptPathSecret cs t ctx ex rnd c secret = Ok (upn_encryptedPathSecret u) /\ upn_encryptionKey u = pub.
Proof.
  unfold makeNode. intros H. apply rbind_ok in H. destruct H as (c & E & H). apply rbind_ok in H. destruct H as (cts & E2 & H). apply Ok_inj in H. subst u. eauto.
Qed.

Lemma makePath_sent cs k t t' new ctx rnd li up0 : shaped k t -> lists_members_below k t -> shaped k t' -> merged cs k t t' li up0 ->
  forall l seed secrets z keys nodes, (forall a c, In (a, c) l -> In (a, c) (filtered k t (leafPath k li))) ->
  pathChain cs seed (length l) = Ok (secrets, z) -> Forall2 (fun s kp => nodeKeyPair cs s = Ok kp) secrets keys ->
  Forall2 (fun p u => makeNode cs t' ctx (map (fun li => 2 * li) new) rnd (number k (leafPath k li)) (map (number k) (proper_ancestors (leafPath k li))) p = Ok u)
    (combine (map (number k) (map fst l)) (combine secrets keys)) nodes ->
  sent cs k t' new ctx l nodes seed z /\ Forall2 (fun kp u => fst kp = upn_encryptionKey u) keys nodes.
Proof.
  intros Sh L Sh' M. pose proof (proj1 (proj1 Sh)) as Hk.
  induction l as [|[a c] l IH]; intros seed secrets z keys nodes Hin HC HK HN.
  - cbn [length pathChain] in HC. apply Ok_inj in HC. injection HC as <- <-. inversion HK. subst keys.
    cbn [map combine] in HN. inversion HN. cbn [sent]. auto.
  - cbn [length] in HC. apply pathChain_cons in HC. destruct HC as (s' & r & -> & Es & HC). inversion HK as [|? [pub priv] ? keys' Ek HK' E1 E2]. subst keys.
    cbn [map fst combine] in HN. inversion HN as [|? u ? nodes' Eu HN' E3 E4]. subst nodes. clear HN HK E1 E3.
    apply makeNode_inv in Eu. destruct Eu as (c' & Ec & Eu & Ep').
    destruct (filtered_In _ _ _ _ _ (Hin a c (or_introl eq_refl))) as (b & w & Ep & ->).
    rewrite (copathChild_ok k (leafPath k li) a b w Hk (leafPath_in _ _) Ep) in Ec. apply Ok_inj in Ec. subst c'.
    destruct (resolve_copath cs k t t' li up0 a b w Sh L Sh' M Ep) as [ER EQ].
    destruct (IH s' r z keys' nodes' (fun a c H => Hin a c (or_intror H)) HC HK' HN') as [I1 I2]. split.
    + apply sent_cons. exists u, nodes'. splits; [reflexivity| | |].
      * exists priv. apply node_keys_iff. unfold nodeKeyPair in Ek. apply rbind_ok in Ek. destruct Ek as (ns & X & Y). exists ns. rewrite Ep'. auto.
      * eapply encrypt_ok; eauto; [apply Sh'|]. rewrite EQ. intros q Hq. refine (proj1 (resolution_In k t Sh L _ (a ++ [negb b]) _ eq_refl q Hq)).
        apply snoc_in. assert (X : in_tree k (leafPath k li)) by apply leafPath_in. rewrite Ep in X. unfold in_tree in X. rewrite app_length in X. cbn in X. lia.
      * exists s'. auto.
    + constructor; auto.
Qed.

Lemma same_keys_fold (t : ratchetTree) : forall fdp (keys : list (bytes * bytes)) nodes, Forall2 (fun kp u => fst kp = upn_encryptionKey u) keys nodes ->
  foldM (fun t p => setN t (fst p) (Some (NParent (mkParentNode (fst (snd p)) [] [])))) t (combine fdp keys) =
  foldM (fun t p => setN t (fst p) (Some (NParent (mkParentNode (upn_encryptionKey (snd p)) [] [])))) t (combine fdp nodes).
Proof.
  intros fdp keys nodes H. revert t fdp. induction H as [|[pub priv] u keys nodes E _ IH]; intros t [|x fdp]; try reflexivity.
  cbn [fst] in E. cbn [combine foldM fst snd]. rewrite E. destruct (setN t x _); cbn [rbind]; auto.
Qed.

Lemma Forall2_len {A B} (R : A -> B -> Prop) l1 l2 : Forall2 R l1 l2 -> length l1 = length l2.
Proof. induction 1; cbn [length]; congruence. Qed.
Lemma pathChain_length cs : forall n s r z, pathChain cs s n = Ok (r, z) -> length r = n.
Proof.
  induction n as [|n IH]; intros s r z H; [apply Ok_inj in H; now injection H as <- _|].
  apply pathChain_cons in H. destruct H as (s' & r' & -> & _ & H). cbn [length]. f_equal. eauto.
Qed.

Lemma makePath_inv cs t ctx ex li old leafPub sigPriv rndSig seed rnd up z t' dp :
  directPath (numLeaves t) (nodeIndexOf li) = Ok dp ->
  makePath cs t ctx ex li old leafPub sigPriv rndSig seed rnd = Ok (up, z, t') ->
  exists t1 fdp secrets keys t2 t3 ph th,
    foldM (fun t x => setN t x None) t dp = Ok t1 /\ filteredDirectPath t1 (nodeIndexOf li) = Ok fdp /\
    pathChain cs seed (length fdp) = Ok (secrets, z) /\ Forall2 (fun s kp => nodeKeyPair cs s = Ok kp) secrets keys /\
    foldM (fun t p => setN t (fst p) (Some (NParent (mkParentNode (fst (snd p)) [] [])))) t1 (combine fdp keys) = Ok t2 /\
    mergeParentHashes cs (nodeIndexOf li) dp t2 [] (rev fdp) = Ok (t3, ph) /\
    ln_parentHash (up_leafNode up) = ph /\
    setN t3 (nodeIndexOf li) (Some (NLeaf (up_leafNode up))) = Ok t' /\
    computeRootTreeHash cs t' = Ok th /\
    Forall2 (fun p u => makeNode cs t' (nextContext ctx th (gc_confirmedTranscriptHash ctx)) ex rnd (nodeIndexOf li) dp p = Ok u)
      (combine fdp (combine secrets keys)) (up_nodes up).
Proof.
  intros Hdp H. unfold makePath in H. rewrite Hdp in H. cbn [rbind] in H.
  apply rbind_ok in H. destruct H as (t1 & E1 & H). apply rbind_ok in H. destruct H as (fdp & Ef & H).
  apply rbind_ok in H. destruct H as ([secrets z'] & Es & H). apply rbind_ok in H. destruct H as (keys & Ek & H).
  apply rbind_ok in H. destruct H as (t2 & E2 & H). apply rbind_ok in H. destruct H as ([t3 ph] & E3 & H).
  apply rbind_ok in H. destruct H as (leaf & El & H). apply rbind_ok in H. destruct H as (t4 & E4 & H).
  apply rbind_ok in H. destruct H as (th & Eth & H). apply rbind_ok in H. destruct H as (nodes & En & H). apply Ok_inj in H. injection H as <- <- <-.
  exists t1, fdp, secrets, keys, t2, t3, ph, th. splits; auto.
  - now apply mapM_ok.
  - unfold leafNodeSign in El. apply rbind_ok in El. destruct El as (? & _ & El). apply rbind_ok in El. destruct El as (? & _ & El). apply Ok_inj in El. now subst leaf.
  - apply mapM_ok. exact En.
Qed.

Theorem makePath_update_path cs k t ctx new li old leafPub sigPriv rndSig seed rnd up z t' :
  shaped k t -> lists_members_below k t -> li < leaf_count k ->
  makePath cs t ctx (map (fun li => 2 * li) new) li old leafPub sigPriv rndSig seed rnd = Ok (up, z, t') ->
  shaped k t' /\
  exists th, computeRootTreeHash cs t' = Ok th /\
    update_path cs k t t' new (nextContext ctx th (gc_confirmedTranscriptHash ctx)) li up z.
Proof.
  intros Sh L Hli H. pose proof (proj1 (proj1 Sh)) as Hk.
  assert (Hdp : directPath (numLeaves t) (nodeIndexOf li) = Ok (map (number k) (proper_ancestors (leafPath k li)))).
  { rewrite (nodeIndexOf_leaf k li Hk Hli). apply leaf_directPath; auto. apply Sh. }
  apply (makePath_inv _ _ _ _ _ _ _ _ _ _ _ _ _ _ _ Hdp) in H.
  destruct H as (t1 & fdp & secrets & keys & t2 & t3 & ph & th & E1 & Ef & Es & Ek & E2 & E3 & Hph & E4 & Eth & En). destruct up as [leaf nodes].
  cbn [up_leafNode up_nodes] in *. rewrite (nodeIndexOf_leaf k li Hk Hli), <- (leafPath_number k li Hli) in *.
  destruct (blank_path k t (leafPath k li) (shaped_full _ _ Sh) (leafPath_in _ _)) as (t1' & E1' & F1 & B1 & O1).
  rewrite E1 in E1'. apply Ok_inj in E1'. subst t1'.
  assert (Sh1 : shaped k t1).
  { split; [assumption|]. intros q n Hq E. destruct (above_dec q (leafPath k li)) as [Ha|Ha]; [rewrite B1 in E by auto; discriminate|].
    rewrite O1 in E by auto. now apply Sh. }
  assert (Efil : filtered k t1 (leafPath k li) = filtered k t (leafPath k li)) by (apply filtered_ext; [apply leafPath_in|auto]).
  assert (Ef' : fdp = map (number k) (map fst (filtered k t (leafPath k li)))).
  { rewrite (filteredDirectPath_ok k t1 _ Sh1 (leafPath_in _ _)), Efil in Ef. apply Ok_inj in Ef. now symmetry. }
  subst fdp. rewrite !map_length in Es.
  assert (KL : length keys = length (filtered k t (leafPath k li))).
  { apply Forall2_len in Ek. rewrite <- Ek. eapply pathChain_length; eauto. }
  assert (KN : Forall2 (fun kp u => fst kp = upn_encryptionKey u) keys nodes).
  { pose proof (pathChain_length _ _ _ _ _ Es) as SL. clear - KL SL En.
    revert secrets keys nodes KL SL En. generalize (filtered k t (leafPath k li)) as l.
    induction l as [|x l IH]; intros [|s secrets] [|[pub priv] keys] nodes KL SL En; try discriminate; cbn [map combine] in En;
      inversion En as [|? u ? nodes' Eu En']; subst; constructor.
    - apply makeNode_inv in Eu. destruct Eu as (c & _ & _ & Eu). now symmetry.
    - apply (IH secrets keys); auto. }
  assert (NL : length nodes = length (filtered k t (leafPath k li))) by (rewrite <- KL; symmetry; eapply Forall2_len; eauto).
  assert (HM : mergeUpdatePath cs t li (mkUpdatePath leaf nodes) = Ok t').
  { rewrite (mergeUpdatePath_unfold cs k t li _ Sh) by now rewrite (designated_leaf k). rewrite (designated_leaf k) by assumption. cbn zeta.
    rewrite E1. cbn [rbind]. rewrite Ef. cbn [rbind up_nodes up_leafNode].
    replace (lenN (map (number k) (map fst (filtered k t (leafPath k li)))) =? lenN nodes) with true.
    2: { symmetry. apply N.eqb_eq. rewrite !lenN_map. unfold lenN. f_equal. symmetry. exact NL. }
    cbn [guard rbind]. rewrite <- (same_keys_fold t1 _ keys nodes KN), E2. cbn [rbind]. rewrite E3. cbn [rbind].
    rewrite Hph, (proj2 (bytes_eqb_true _ _) eq_refl). cbn [guard rbind]. exact E4. }
  apply (mergeUpdatePath_sound cs k) in HM; [|assumption]. rewrite (designated_leaf k) in HM by assumption. destruct HM as [Sh4 M].
  split; [assumption|]. exists th. split; [assumption|]. split; [assumption|]. exists seed.
  eapply (makePath_sent cs k t t' new _ rnd li); eauto.
Qed.
End WithCrypto.
