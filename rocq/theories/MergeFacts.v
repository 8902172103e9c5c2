(** Filtered direct paths and merging an update path. *)
From Verif Require Export TreeHashFacts HeapFacts.

(** ** Writing nodes *)
Section Write.
Context {A : Type}.
Implicit Types t : list (option A).

Lemma set_path k t p o : full k t -> in_tree k p ->
  exists t', setN t (number k p) o = Ok t' /\ full k t' /\ at_path k t' p = o /\
             forall q, in_tree k q -> q <> p -> at_path k t' q = at_path k t q.
Proof.
  intros F Hp. assert (Hlt : number k p < lenN t) by (destruct F as [_ ->]; now apply number_lt).
  destruct (setN t (number k p) o) as [t'| | |] eqn:E; try (rewrite setN_in in E by auto; discriminate).
  exists t'. split; [reflexivity|].
  assert (F' : full k t') by (destruct F as [Hk Ht]; split; [assumption|now rewrite (setN_len _ _ _ _ E)]).
  assert (G : forall q, in_tree k q -> Ok (at_path k t' q) = if number k q =? number k p then Ok o else Ok (at_path k t q)).
  { intros q Hq. rewrite <- (at_path_getN k t' q F' Hq), <- (at_path_getN k t q F Hq). now rewrite (getN_setN _ _ _ _ _ E). }
  splits; auto.
  - apply Ok_inj. now rewrite (G p Hp), N.eqb_refl.
  - intros q Hq Hne. apply Ok_inj. rewrite (G q Hq). destruct (N.eqb_spec (number k q) (number k p)) as [E0|]; [|reflexivity].
    apply number_inj in E0; auto. contradiction.
Qed.

Lemma set_path_inv k t p o t' : full k t -> in_tree k p -> setN t (number k p) o = Ok t' ->
  full k t' /\ at_path k t' p = o /\ forall q, in_tree k q -> q <> p -> at_path k t' q = at_path k t q.
Proof. intros F Hp H. destruct (set_path k t p o F Hp) as (t2 & E & R). rewrite E in H. apply Ok_inj in H. now subst. Qed.

Lemma write_paths {X} (f : X -> option A) k : forall (L : list path) (us : list X) t,
  full k t -> NoDup L -> (forall a, In a L -> in_tree k a) -> length L = length us ->
  exists t', foldM (fun t p => setN t (fst p) (f (snd p))) t (combine (map (number k) L) us) = Ok t' /\ full k t' /\
    Forall2 (fun a u => at_path k t' a = f u) L us /\
    (forall p, in_tree k p -> ~ In p L -> at_path k t' p = at_path k t p).
Proof.
  induction L as [|a L IH]; intros us t F ND Hin Hl; destruct us as [|u us]; try discriminate.
  - exists t. cbn. splits; auto.
  - inversion ND as [|? ? Na ND']; subst. cbn [map combine foldM fst snd].
    destruct (set_path k t a (f u) F (Hin a (or_introl eq_refl))) as (t1 & -> & F1 & A1 & O1). cbn [rbind].
    destruct (IH us t1 F1 ND' (fun x Hx => Hin x (or_intror Hx)) ltac:(cbn in Hl; lia)) as (t2 & E2 & F2 & A2 & O2).
    exists t2. splits; auto.
    + constructor; [|exact A2]. rewrite (O2 a); auto. apply Hin. now left.
    + intros p Hp Hn. rewrite O2, O1; auto; intros HH; apply Hn; [left; congruence|right; assumption].
Qed.

(** Blanking a direct path *)
Lemma blank_path k t p : full k t -> in_tree k p ->
  exists t', foldM (fun t x => setN t x None) t (map (number k) (proper_ancestors p)) = Ok t' /\ full k t' /\
    (forall q, above q p -> at_path k t' q = None) /\
    (forall q, in_tree k q -> ~ above q p -> at_path k t' q = at_path k t q).
Proof.
  intros F Hp. destruct (blank_all_ok (map (number k) (proper_ancestors p)) t) as (t' & E).
  { intros x Hx. destruct F as [_ ->]. eapply dp_lt; eauto. }
  exists t'. split; [exact E|]. apply blank_all in E. destruct E as [L G].
  assert (F' : full k t') by (destruct F as [Hk Ht]; split; [assumption|congruence]).
  assert (G' : forall q, in_tree k q -> Ok (at_path k t' q) = if memN (number k q) (map (number k) (proper_ancestors p)) then Ok None else Ok (at_path k t q)).
  { intros q Hq. now rewrite <- (at_path_getN k t' q F' Hq), <- (at_path_getN k t q F Hq). }
  splits; auto.
  - intros q Ha. apply Ok_inj. rewrite (G' q) by (eapply above_in; eauto).
    now rewrite (proj2 (memN_dp k p q Hp (above_in _ _ _ Ha Hp)) Ha).
  - intros q Hq Ha. apply Ok_inj. rewrite (G' q Hq). destruct (memN _ _) eqn:E; [|reflexivity]. apply memN_dp in E; auto. contradiction.
Qed.
End Write.

(** ** Filtered direct paths *)
Lemma filtered_snoc k t q b : filtered k t (q ++ [b]) =
  (if blank_below k t (k - length (q ++ [negb b])) (q ++ [negb b]) then [] else [(q, q ++ [negb b])]) ++ filtered k t q.
Proof.
  unfold filtered. rewrite proper_ancestors_snoc, siblings_up_snoc. cbn [combine filter snd].
  destruct (blank_below _ _ _ _); reflexivity.
Qed.

Lemma filtered_nil k t : filtered k t [] = [].
Proof. reflexivity. Qed.

Lemma filteredLoop_ok k t : shaped k t -> forall p fuel, in_tree k p -> (length p <= fuel)%nat ->
  filteredDirectPathLoop fuel t (number k p) = Ok (map (number k) (map fst (filtered k t p))).
Proof.
  intros Sh. pose proof (shaped_full _ _ Sh) as F. destruct F as [Hk Ht].
  induction p as [|b q IH] using rev_ind; intros fuel Hp Hf.
  - destruct fuel; cbn [filteredDirectPathLoop]; now rewrite (numLeaves_tree t k Hk Ht), (path_parent_root k Hk).
  - apply in_tree_snoc in Hp. rewrite app_length in Hf. cbn in Hf. destruct fuel as [|fuel]; [lia|].
    cbn [filteredDirectPathLoop]. rewrite (numLeaves_tree t k Hk Ht), (path_parent k Hk q b Hp), (path_sibling k Hk q b Hp).
    destruct (resolve_ok k t Sh (q ++ [negb b]) (snoc_in _ _ _ Hp)) as (r & Hr & _ & Hnil). rewrite Hr. cbn [rbind].
    rewrite IH by (unfold in_tree; lia). cbn [rbind]. rewrite filtered_snoc.
    pose proof (blank_below_spec k t _ (q ++ [negb b]) (snoc_in _ _ _ Hp) eq_refl) as HB.
    destruct (blank_below _ _ _ _).
    + rewrite (proj2 Hnil) by now apply HB. reflexivity.
    + destruct r as [|x r]; [|reflexivity]. exfalso. rewrite <- Hnil in HB. destruct HB as [_ HB]. discriminate (HB eq_refl).
Qed.
Lemma filtered_eq t x : filteredDirectPath t x = filteredDirectPathLoop 33 t x.
Proof. reflexivity. Qed.
Lemma filteredDirectPath_ok k t p : shaped k t -> in_tree k p ->
  filteredDirectPath t (number k p) = Ok (map (number k) (map fst (filtered k t p))).
Proof. intros Sh Hp. rewrite filtered_eq. apply filteredLoop_ok; auto. destruct Sh as [[Hk _] _]. unfold fits, in_tree in *. lia. Qed.

Lemma combine_In_snd_spec p : forall a s, In (a, s) (combine (proper_ancestors p) (siblings_up p)) ->
  exists b r, p = a ++ b :: r /\ s = a ++ [negb b].
Proof.
  induction p as [|b q IH] using rev_ind; intros a s H; [destruct H|].
  rewrite proper_ancestors_snoc, siblings_up_snoc in H. cbn [combine] in H. destruct H as [H|H].
  - injection H as <- <-. exists b, []. auto.
  - destruct (IH a s H) as (c & r & -> & ->). exists c, (r ++ [b]). split; [|reflexivity]. rewrite <- app_assoc. reflexivity.
Qed.
Lemma filtered_In k t p a s : In (a, s) (filtered k t p) -> exists b r, p = a ++ b :: r /\ s = a ++ [negb b].
Proof. intros H. apply filter_In in H. now apply combine_In_snd_spec. Qed.
Lemma filtered_above k t p a : In a (map fst (filtered k t p)) -> above a p.
Proof. intros H. apply in_map_iff in H. destruct H as ((a' & s) & <- & H). apply filtered_In in H. destruct H as (b & r & -> & _). exists b, r. reflexivity. Qed.
Lemma filtered_NoDup k t p : NoDup (map fst (filtered k t p)).
Proof.
  induction p as [|b q IH] using rev_ind; [constructor|]. rewrite filtered_snoc.
  destruct (blank_below _ _ _ _); cbn [app map fst]; [assumption|]. constructor; auto.
  intros H. apply filtered_above in H. eapply above_not_self; eauto.
Qed.

(** Off the path, the trees agree: so do their filtered paths. *)
Lemma filtered_ext k t1 t2 p : in_tree k p ->
  (forall q, in_tree k q -> q <> p -> ~ above q p -> at_path k t1 q = at_path k t2 q) -> filtered k t1 p = filtered k t2 p.
Proof.
  intros Hp H. unfold filtered. apply filter_ext_in. intros [a s] Hin. cbn [snd]. f_equal.
  apply combine_In_snd_spec in Hin. destruct Hin as (b & r & E & ->).
  assert (Hs : in_tree k (a ++ [negb b])) by (subst p; unfold in_tree in *; rewrite app_length in *; cbn in *; lia).
  assert (D : forall q, in_tree k q -> ancestor_or_self (a ++ [negb b]) q -> at_path k t1 q = at_path k t2 q).
  { intros q Hq [c Hc]. apply H; auto.
    - intros ->. rewrite E, <- app_assoc in Hc. apply app_inv_head in Hc. cbn in Hc. injection Hc as Hc _. now destruct b.
    - intros (x & y & Hy). rewrite Hc, E in Hy. rewrite <- !app_assoc in Hy. apply app_inv_head in Hy. cbn in Hy. injection Hy as Hy _. now destruct b. }
  pose proof (blank_below_spec k t1 _ _ Hs eq_refl) as B1. pose proof (blank_below_spec k t2 _ _ Hs eq_refl) as B2.
  destruct (blank_below k t1 _ _), (blank_below k t2 _ _); auto.
  - symmetry. apply B2. intros q Hq Ha. rewrite <- D by auto. now apply (proj1 B1).
  - apply B1. intros q Hq Ha. rewrite D by auto. now apply (proj1 B2).
Qed.

(** A side of the path *)
Definition beside (p s : path) : Prop := exists a b r, p = a ++ b :: r /\ s = a ++ [negb b].
Lemma beside_not_above p s q : beside p s -> ancestor_or_self s q -> q <> p /\ ~ above q p.
Proof.
  intros (a & b & r & -> & ->) [c ->]. split.
  - intros H. rewrite <- app_assoc in H. apply app_inv_head in H. cbn in H. injection H as H _. now destruct b.
  - intros (x & y & H). rewrite <- !app_assoc in H. apply app_inv_head in H. cbn in H. injection H as H _. now destruct b.
Qed.
Lemma beside_in k p s : beside p s -> in_tree k p -> in_tree k s.
Proof. intros (a & b & r & -> & ->). unfold in_tree. rewrite !app_length. cbn. lia. Qed.
Lemma filtered_beside k t p a s : In (a, s) (filtered k t p) -> beside p s.
Proof. intros H. apply filtered_In in H. destruct H as (b & r & E & ->). exists a, b, r. auto. Qed.

Section WithCrypto.
Context {C : crypto}.

Lemma computeParentHash_value cs pn th h : computeParentHash cs pn th = Ok h -> h = parent_hash cs (pn_encryptionKey pn) (pn_parentHash pn) th.
Proof.
  unfold computeParentHash. intros H. apply rbind_ok in H. destruct H as (r & R & H). apply hashSum_some in H. unfold parent_hash. now rewrite <- (writes_parentHashInput _ _ _ _ R).
Qed.
Lemma putParentHashInput_ok a b c : lenN a < 2 ^ 30 -> lenN b < 2 ^ 30 -> lenN c < 2 ^ 30 -> exists e, putParentHashInput a b c = Ok e.
Proof.
  intros Ha Hb Hc. unfold putParentHashInput.
  destruct (writeOpaqueVec_bound a Ha) as (x & _ & ->), (writeOpaqueVec_bound b Hb) as (y & _ & ->), (writeOpaqueVec_bound c Hc) as (z & _ & ->).
  eexists; reflexivity.
Qed.
Lemma computeParentHash_defined cs d pn th : cipherSuiteDescriptions cs = Some d ->
  lenN (pn_encryptionKey pn) < 2 ^ 30 -> lenN (pn_parentHash pn) < 2 ^ 30 -> lenN th < 2 ^ 30 ->
  computeParentHash cs pn th = Ok (parent_hash cs (pn_encryptionKey pn) (pn_parentHash pn) th).
Proof.
  intros Hd H1 H2 H3. unfold computeParentHash, parent_hash. destruct (putParentHashInput_ok _ _ _ H1 H2 H3) as (e & E). rewrite E, <- (writes_parentHashInput _ _ _ _ E). cbn [rbind].
  eapply hashSum_ok; eauto.
Qed.
Lemma parent_hash_len cs a b c : crypto_ok C -> lenN (parent_hash cs a b c) < 2 ^ 30.
Proof. intros OK. now apply hash_len. Qed.

(** ** Computing parent hashes from the root down *)
Lemma mergeParentHashes_app cs s dp l1 : forall l2 t prev,
  mergeParentHashes cs s dp t prev (l1 ++ l2) =
  let! (t1, p1) := mergeParentHashes cs s dp t prev l1 in mergeParentHashes cs s dp t1 p1 l2.
Proof.
  induction l1 as [|x l1 IH]; intros l2 t prev; cbn [app mergeParentHashes rbind]; [reflexivity|].
  destruct (getN t x) as [[[|pn]|]| | |]; cbn [rbind]; try reflexivity.
  destruct (children x) as [[lc rc]|]; [|reflexivity].
  destruct (computeTreeHash _ _ _ _); cbn [rbind]; try reflexivity.
  destruct (setN _ _ _); cbn [rbind]; try reflexivity.
  destruct (computeParentHash _ _ _); cbn [rbind]; try reflexivity. apply IH.
Qed.

(** The step for one node *)
Definition mergeStep (cs : N) (k : nat) (t : ratchetTree) (a s : path) (prev : bytes) : res (ratchetTree * bytes) :=
  match at_path k t a with
  | Some (NParent pn) =>
    let! th := computeTreeHash cs t (number k s) [] in
    let pn' := mkParentNode (pn_encryptionKey pn) prev (pn_unmergedLeaves pn) in
    let! t' := setN t (number k a) (Some (NParent pn')) in
    let! h := computeParentHash cs pn' th in
    Ok (t', h)
  | _ => Panic "nil pointer dereference"
  end.

Lemma mergeParentHashes_one cs k t p a b r prev : full k t -> in_tree k p -> p = a ++ b :: r ->
  mergeParentHashes cs (number k p) (map (number k) (proper_ancestors p)) t prev [number k a] = mergeStep cs k t a (a ++ [negb b]) prev.
Proof.
  intros F Hp E. assert (Hlt : (length a < k)%nat) by (subst p; unfold in_tree in Hp; rewrite app_length in Hp; cbn in Hp; lia).
  assert (Ha : in_tree k a) by (unfold in_tree; lia).
  unfold mergeStep. cbn [mergeParentHashes]. rewrite (at_path_getN k t a F Ha). cbn [rbind].
  destruct (at_path k t a) as [[|pn]|]; try reflexivity. rewrite (path_children k (proj1 F) a Hlt).
  assert (EQ : (if (number k (a ++ [false]) =? number k p) || memN (number k (a ++ [false])) (map (number k) (proper_ancestors p))
               then number k (a ++ [true]) else number k (a ++ [false])) = number k (a ++ [negb b])).
  { destruct (N.eqb_spec (number k (a ++ [false])) (number k p)) as [E0|N0]; cbn [orb].
    - apply number_inj in E0; [|now apply snoc_in|assumption]. rewrite E in E0. apply app_inv_head in E0. injection E0 as <- _. reflexivity.
    - destruct (memN _ _) eqn:M.
      + apply memN_dp in M; [|assumption|now apply snoc_in]. destruct M as (c & s & M). rewrite E, <- app_assoc in M. apply app_inv_head in M.
        injection M as -> _. reflexivity.
      + destruct b; [reflexivity|]. exfalso. destruct r as [|c r]; [subst p; now apply N0|].
        assert (above (a ++ [false]) p) by (exists c, r; rewrite <- app_assoc; exact E).
        apply (memN_dp k p (a ++ [false])) in H; [congruence|assumption|now apply snoc_in]. }
  rewrite EQ. reflexivity.
Qed.

(** The links only depend on the nodes of the list and on the nodes beside. *)
Lemma linked_ext cs k p t1 t2 : in_tree k p -> forall l nodes h,
  (forall a s, In (a, s) l -> beside p s) ->
  (forall a, In a (map fst l) -> at_path k t1 a = at_path k t2 a) ->
  (forall q, in_tree k q -> q <> p -> ~ above q p -> at_path k t1 q = at_path k t2 q) ->
  linked cs k t1 l nodes h -> linked cs k t2 l nodes h.
Proof.
  intros Hp. induction l as [|[a s] l IH]; intros [|u nodes] h Hs Ha Ho H; cbn [linked] in *; auto.
  destruct H as (h' & H1 & H2 & H3). exists h'. splits.
  - rewrite <- Ha; [assumption|now left].
  - rewrite H2. f_equal. pose proof (Hs a s (or_introl eq_refl)) as B. apply tree_hash_ext; auto.
    + eapply beside_in; eauto.
    + intros q Hq Hsq. destruct (beside_not_above p s q B Hsq). now apply Ho.
  - apply IH; auto. intros a' s' H. apply (Hs a' s'). now right. intros a' H. apply Ha. now right.
Qed.

Lemma linked_unique cs k p t1 t2 : in_tree k p -> forall l nodes h1 h2,
  (forall a s, In (a, s) l -> beside p s) ->
  (forall q, in_tree k q -> q <> p -> ~ above q p -> at_path k t1 q = at_path k t2 q) ->
  linked cs k t1 l nodes h1 -> linked cs k t2 l nodes h2 ->
  h1 = h2 /\ forall a, In a (map fst l) -> at_path k t1 a = at_path k t2 a.
Proof.
  intros Hp. induction l as [|[a s] l IH]; intros [|u nodes] h1 h2 Hs Ho H1 H2; cbn [linked] in *; try contradiction.
  - split; [congruence|]. intros a [].
  - destruct H1 as (g1 & A1 & B1 & C1), H2 as (g2 & A2 & B2 & C2).
    destruct (IH nodes g1 g2) as [-> HH]; auto. { intros a' s' H. apply (Hs a' s'). now right. }
    pose proof (Hs a s (or_introl eq_refl)) as B.
    assert (T : tree_hash cs k t1 [] (k - length s) s = tree_hash cs k t2 [] (k - length s) s).
    { apply tree_hash_ext; auto. eapply beside_in; eauto. intros q Hq Hsq. destruct (beside_not_above p s q B Hsq). now apply Ho. }
    split; [congruence|]. intros a' [<-|H]; [cbn; congruence|auto].
Qed.

Lemma linked_length cs k t : forall l nodes h, linked cs k t l nodes h -> length l = length nodes.
Proof.
  induction l as [|[a s] l IH]; intros [|u nodes] h H; cbn [linked] in H; try contradiction; [reflexivity|].
  destruct H as (h' & _ & _ & H). cbn. f_equal. eauto.
Qed.

(** The nodes at [l] have the keys of [nodes] and nothing else. *)
Definition keyed (k : nat) (t : ratchetTree) (l : list (path * path)) (nodes : list updatePathNode) : Prop :=
  Forall2 (fun a u => at_path k t a = Some (NParent (mkParentNode (upn_encryptionKey u) [] []))) (map fst l) nodes.

Lemma shaped_set_parent k t t' a pn : shaped k t -> full k t' -> (length a < k)%nat -> at_path k t' a = Some (NParent pn) ->
  (forall q, in_tree k q -> q <> a -> at_path k t' q = at_path k t q) -> shaped k t'.
Proof.
  intros [F Sh] F' Hl Ha Ho. split; [assumption|]. intros q n Hq E. destruct (path_eq_dec q a) as [->|Hne].
  - rewrite Ha in E. injection E as <-. exact Hl.
  - rewrite Ho in E by auto. eauto.
Qed.

Lemma above_lt k a p : above a p -> in_tree k p -> (length a < k)%nat.
Proof. intros Ha Hp. apply above_length in Ha. unfold in_tree in Hp. lia. Qed.

Section Hashes.
Variables (cs : N) (k : nat) (p : path).
Hypothesis Hp : in_tree k p.

Lemma mergeParentHashes_spec : forall l nodes t,
  shaped k t -> keyed k t l nodes -> NoDup (map fst l) ->
  (forall a s, In (a, s) l -> exists b r, p = a ++ b :: r /\ s = a ++ [negb b]) ->
  forall t' h, mergeParentHashes cs (number k p) (map (number k) (proper_ancestors p)) t [] (rev (map (number k) (map fst l))) = Ok (t', h) ->
    shaped k t' /\ linked cs k t' l nodes h /\
    (forall q, in_tree k q -> ~ In q (map fst l) -> at_path k t' q = at_path k t q).
Proof.
  induction l as [|[a s] l IH]; intros nodes t Sh K ND Hl t' h H.
  - inversion K; subst. cbn in H. apply Ok_inj in H. injection H as <- <-. cbn [linked]. auto.
  - inversion K as [|? u ? nodes' Ka K']; subst. inversion ND as [|? ? Na ND']; subst. cbn [map fst rev] in H.
    rewrite mergeParentHashes_app in H. apply rbind_ok in H. destruct H as ([t1 ph] & H1 & H).
    destruct (IH nodes' t Sh K' ND' (fun a' s' Hin => Hl a' s' (or_intror Hin)) _ _ H1) as (Sh1 & L1 & O1).
    destruct (Hl a s (or_introl eq_refl)) as (b & r & Ep & Es).
    assert (Ab : above a p) by (exists b, r; exact Ep). assert (Ha : in_tree k a) by (eapply above_in; eauto).
    rewrite (mergeParentHashes_one cs k t1 p a b r ph (shaped_full _ _ Sh1) Hp Ep) in H. unfold mergeStep in H.
    cbn [fst] in Ka, Na. rewrite (O1 a Ha Na), Ka in H. cbn [pn_encryptionKey pn_unmergedLeaves] in H.
    apply rbind_ok in H. destruct H as (th & Hth & H). apply rbind_ok in H. destruct H as (t2 & Ht2 & H).
    apply rbind_ok in H. destruct H as (h2 & Hh2 & H). apply Ok_inj in H. injection H as <- <-.
    assert (Bs : beside p s) by (exists a, b, r; auto).
    apply (set_path_inv k) in Ht2; [|apply Sh1|assumption]. destruct Ht2 as (F2 & A2 & O2).
    assert (Sh2 : shaped k t2) by (eapply shaped_set_parent; eauto; eapply above_lt; eauto).
    assert (Off : forall q, in_tree k q -> q <> p -> ~ above q p -> at_path k t1 q = at_path k t2 q).
    { intros q Hq Hne Hab. symmetry. apply O2; auto. intros ->. contradiction. }
    split; [assumption|]. split.
    + cbn [linked]. exists ph. splits; auto.
      * apply computeParentHash_value in Hh2. cbn [pn_encryptionKey pn_parentHash] in Hh2. rewrite Hh2. f_equal.
        rewrite <- Es in Hth. apply (computeTreeHash_value k) in Hth; [|assumption|eapply beside_in; eauto]. rewrite Hth.
        apply tree_hash_ext; auto. { eapply beside_in; eauto. }
        intros q Hq Hsq. destruct (beside_not_above p s q Bs Hsq). now apply Off.
      * eapply (linked_ext cs k p t1 t2 Hp); eauto.
        -- intros a' s' Hin. destruct (Hl a' s' (or_intror Hin)) as (b' & r' & E1 & E2). exists a', b', r'. auto.
        -- intros a' Hin. symmetry. apply O2; [|intros ->; contradiction].
           apply in_map_iff in Hin. destruct Hin as ((a'' & s') & <- & Hin). destruct (Hl a'' s' (or_intror Hin)) as (b' & r' & E1 & E2).
           apply (above_in k _ p); [exists b', r'; exact E1|exact Hp].
    + cbn [map fst]. intros q Hq Hn. rewrite O2, O1; auto; intros HH; apply Hn; [now right|left; congruence].
Qed.

Variable d : suiteDesc.
Hypothesis OK : crypto_ok C.
Hypothesis Hd : cipherSuiteDescriptions cs = Some d.

Lemma linked_len t : forall l nodes h, linked cs k t l nodes h -> lenN h < 2 ^ 30.
Proof.
  intros [|[a s] l] [|u nodes] h H; cbn [linked] in H; try contradiction.
  - now subst.
  - destruct H as (h' & _ & -> & _). now apply parent_hash_len.
Qed.

Lemma mergeParentHashes_defined : forall l nodes t,
  shaped k t -> keyed k t l nodes -> NoDup (map fst l) -> Forall (fun u => lenN (upn_encryptionKey u) < 2 ^ 30) nodes ->
  (forall a s, In (a, s) l -> exists b r, p = a ++ b :: r /\ s = a ++ [negb b]) ->
  (forall q n, in_tree k q -> q <> p -> ~ above q p -> at_path k t q = Some n -> exists e, putNode n = Ok e) ->
  exists t' h, mergeParentHashes cs (number k p) (map (number k) (proper_ancestors p)) t [] (rev (map (number k) (map fst l))) = Ok (t', h).
Proof.
  induction l as [|[a s] l IH]; intros nodes t Sh K ND HE Hl He.
  - exists t, []. reflexivity.
  - inversion K as [|? u ? nodes' Ka K']; subst. inversion ND as [|? ? Na ND']; subst. inversion HE as [|? ? Hu HE']; subst. cbn [map fst rev].
    rewrite mergeParentHashes_app.
    destruct (IH nodes' t Sh K' ND' HE' (fun a' s' Hin => Hl a' s' (or_intror Hin)) He) as (t1 & ph & E1). rewrite E1. cbn [rbind].
    destruct (mergeParentHashes_spec l nodes' t Sh K' ND' (fun a' s' Hin => Hl a' s' (or_intror Hin)) _ _ E1) as (Sh1 & L1 & O1).
    destruct (Hl a s (or_introl eq_refl)) as (b & r & Ep & Es).
    assert (Ab : above a p) by (exists b, r; exact Ep). assert (Ha : in_tree k a) by (eapply above_in; eauto).
    rewrite (mergeParentHashes_one cs k t1 p a b r ph (shaped_full _ _ Sh1) Hp Ep). unfold mergeStep.
    cbn [fst] in Ka, Na. rewrite (O1 a Ha Na), Ka. cbn [pn_encryptionKey pn_unmergedLeaves].
    assert (Bs : beside p s) by (exists a, b, r; auto). rewrite <- Es.
    rewrite (computeTreeHash_defined k t1 cs [] s d Sh1 OK Hd (beside_in _ _ _ Bs Hp)).
    2: { intros q n Hq Hsq E. destruct (beside_not_above p s q Bs Hsq) as [B1 B2]. rewrite O1 in E; auto. { eapply He; eauto. }
         intros Hin. apply in_map_iff in Hin. destruct Hin as ((a'' & s') & <- & Hin). destruct (Hl a'' s' (or_intror Hin)) as (b' & r' & E3 & E4).
         apply B2. exists b', r'. exact E3. }
    cbn [rbind].
    destruct (set_path k t1 a (Some (NParent (mkParentNode (upn_encryptionKey u) ph []))) (shaped_full _ _ Sh1) Ha) as (t2 & -> & _). cbn [rbind].
    rewrite (computeParentHash_defined cs d); [cbn [rbind]; eauto|assumption|exact Hu|exact (linked_len _ _ _ _ L1)|now apply tree_hash_len].
Qed.
End Hashes.

(** ** Merging *)
Lemma placed_of_keyed k t l nodes a : keyed k t l nodes -> In a (map fst l) -> exists pn, at_path k t a = Some (NParent pn).
Proof.
  unfold keyed. induction 1 as [|x u l' us Hx K IH]; intros []; [subst; eauto|auto].
Qed.

(** The tree before parent hashes are computed *)
Lemma prepare k t li nodes : shaped k t -> li < leaf_count k -> let p := leafPath k li in
  length (filtered k t p) = length nodes ->
  exists t1 t2, foldM (fun t x => setN t x None) t (map (number k) (proper_ancestors p)) = Ok t1 /\
    filteredDirectPath t1 (number k p) = Ok (map (number k) (map fst (filtered k t p))) /\
    foldM (fun t q => setN t (fst q) (Some (NParent (mkParentNode (upn_encryptionKey (snd q)) [] [])))) t1
          (combine (map (number k) (map fst (filtered k t p))) nodes) = Ok t2 /\
    shaped k t2 /\ keyed k t2 (filtered k t p) nodes /\
    (forall a, above a p -> ~ In a (map fst (filtered k t p)) -> at_path k t2 a = None) /\
    (forall q, in_tree k q -> ~ above q p -> at_path k t2 q = at_path k t q).
Proof.
  intros Sh Hli p Hlen. pose proof (leafPath_in k li) as Hp. fold p in Hp.
  destruct (blank_path k t p (shaped_full _ _ Sh) Hp) as (t1 & E1 & F1 & B1 & O1).
  assert (Sh1 : shaped k t1).
  { split; [assumption|]. intros q n Hq E. destruct (above_dec q p) as [Ha|Ha]; [rewrite B1 in E by auto; discriminate|].
    rewrite O1 in E by auto. now apply Sh. }
  assert (Ef : filtered k t1 p = filtered k t p) by (apply filtered_ext; auto).
  destruct (write_paths (fun u => Some (NParent (mkParentNode (upn_encryptionKey u) [] []))) k (map fst (filtered k t p)) nodes t1 F1) as (t2 & E2 & F2 & A2 & O2).
  { apply filtered_NoDup. }
  { intros a Ha. apply filtered_above in Ha. eapply above_in; eauto. }
  { rewrite map_length. exact Hlen. }
  assert (K : keyed k t2 (filtered k t p) nodes) by exact A2.
  exists t1, t2. splits; auto.
  - rewrite (filteredDirectPath_ok k t1 p Sh1 Hp), Ef. reflexivity.
  - split; [assumption|]. intros q n Hq E. destruct (in_dec path_eq_dec q (map fst (filtered k t p))) as [Hin|Hin].
    + destruct (placed_of_keyed _ _ _ _ _ K Hin) as (pn & E'). rewrite E' in E. injection E as <-. apply filtered_above in Hin. eapply above_lt; eauto.
    + rewrite O2 in E by auto. now apply Sh1.
  - intros a Ha Hn. rewrite O2; auto. eapply above_in; eauto.
  - intros q Hq Ha. rewrite O2, O1; auto. intros HH. apply filtered_above in HH. contradiction.
Qed.

Lemma mergeUpdatePath_unfold cs k t li up : shaped k t -> designated li < leaf_count k ->
  let p := leafPath k (designated li) in
  mergeUpdatePath cs t li up =
  (let! t1 := foldM (fun t x => setN t x None) t (map (number k) (proper_ancestors p)) in
   let! fdp := filteredDirectPath t1 (number k p) in
   let! _ := guard (lenN fdp =? lenN (up_nodes up)) "mls: UpdatePath and filtered direct path have different lengths" in
   let! t2 := foldM (fun t p => setN t (fst p) (Some (NParent (mkParentNode (upn_encryptionKey (snd p)) [] [])))) t1 (combine fdp (up_nodes up)) in
   let! (t3, prev) := mergeParentHashes cs (number k p) (map (number k) (proper_ancestors p)) t2 [] (rev fdp) in
   let! _ := guard (bytes_eqb (ln_parentHash (up_leafNode up)) prev) "mls: parent hash mismatch for update path's leaf node" in
   setN t3 (number k p) (Some (NLeaf (up_leafNode up)))).
Proof.
  intros Sh Hli p. unfold mergeUpdatePath. rewrite nodeIndexOf_designated, (leaf_directPath k) by (auto; apply Sh). cbn [rbind].
  unfold p. now rewrite leafPath_number by assumption.
Qed.

Lemma merged_of_steps cs k t t2 t3 t' li up h : let p := leafPath k li in
  shaped k t -> li < leaf_count k ->
  shaped k t2 ->
  (forall a, above a p -> ~ In a (map fst (filtered k t p)) -> at_path k t2 a = None) ->
  (forall q, in_tree k q -> ~ above q p -> at_path k t2 q = at_path k t q) ->
  shaped k t3 -> linked cs k t3 (filtered k t p) (up_nodes up) h ->
  (forall q, in_tree k q -> ~ In q (map fst (filtered k t p)) -> at_path k t3 q = at_path k t2 q) ->
  ln_parentHash (up_leafNode up) = h ->
  setN t3 (number k p) (Some (NLeaf (up_leafNode up))) = Ok t' ->
  shaped k t' /\ merged cs k t t' li up.
Proof.
  intros p Sh Hli Sh2 B2 O2 Sh3 L3 O3 Hh Hset. pose proof (leafPath_in k li) as Hp. fold p in Hp.
  apply (set_path_inv k) in Hset; [|apply Sh3|assumption]. destruct Hset as (F' & A' & O').
  assert (Nin : ~ In p (map fst (filtered k t p))) by (intros H; apply filtered_above in H; eapply above_not_self; eauto).
  split.
  - split; [assumption|]. intros q n Hq E. destruct (path_eq_dec q p) as [->|Hne].
    + rewrite A' in E. injection E as <-. apply leafPath_length.
    + rewrite O' in E by auto. now apply Sh3.
  - unfold merged. fold p. splits; auto.
    + eapply (linked_ext cs k p t3 t' Hp); [| | |rewrite Hh; exact L3].
      * intros a s H. eapply filtered_beside; eauto.
      * intros a Ha. symmetry. pose proof (filtered_above _ _ _ _ Ha) as Hab. apply O'; [eapply above_in; eauto|]. intros ->. contradiction.
      * intros q Hq Hne _. symmetry. now apply O'.
    + intros a Ha Hn. assert (in_tree k a) by (eapply above_in; eauto). rewrite O', O3, B2; auto. intros ->. eapply above_not_self; eauto.
    + intros q Hq Hne Ha. rewrite O', O3, O2; auto. intros H. apply filtered_above in H. contradiction.
Qed.

Lemma merge_in_range cs k t li up t' : shaped k t -> mergeUpdatePath cs t li up = Ok t' -> designated li < leaf_count k.
Proof.
  intros Sh H. unfold mergeUpdatePath in H. rewrite nodeIndexOf_designated in H.
  apply rbind_ok in H. destruct H as (dp & _ & H). apply rbind_ok in H. destruct H as (t1 & H1 & H).
  apply rbind_ok in H. destruct H as (fdp & _ & H). apply rbind_ok in H. destruct H as (? & _ & H).
  apply rbind_ok in H. destruct H as (t2 & H2 & H). apply rbind_ok in H. destruct H as ([t3 prev] & H3 & H).
  apply rbind_ok in H. destruct H as (? & _ & H). apply setN_ok in H. destruct H as [H _].
  assert (L1 : lenN t1 = lenN t) by (now apply blank_all in H1).
  assert (L2 : forall l t t', foldM (fun t p => setN t (fst p) (Some (NParent (mkParentNode (upn_encryptionKey (snd p)) [] [])))) t l = Ok t' -> lenN t' = lenN t).
  { induction l as [|y l IH]; intros u u' Hu; cbn [foldM] in Hu; [apply Ok_inj in Hu; now subst|].
    apply rbind_ok in Hu. destruct Hu as (v & Hv & Hu). apply IH in Hu. apply setN_len in Hv. congruence. }
  assert (L3 : forall l t prev t' prev', mergeParentHashes cs (2 * designated li) dp t prev l = Ok (t', prev') -> lenN t' = lenN t).
  { induction l as [|y l IH]; intros u pv u' pv' Hu; cbn [mergeParentHashes] in Hu; [apply Ok_inj in Hu; now injection Hu as -> _|].
    apply rbind_ok in Hu. destruct Hu as ([[|pn]|] & Hv & Hu); try discriminate. destruct (children y) as [[lc rc]|]; [|discriminate].
    apply rbind_ok in Hu. destruct Hu as (th & _ & Hu). apply rbind_ok in Hu. destruct Hu as (v & Hv' & Hu).
    apply rbind_ok in Hu. destruct Hu as (hh & _ & Hu). apply IH in Hu. apply setN_len in Hv'. congruence. }
  rewrite (L3 _ _ _ _ _ H3), (L2 _ _ _ H2), L1 in H. apply (leaf_in_array k t); auto. apply Sh.
Qed.

Theorem mergeUpdatePath_sound cs k t li up t' : shaped k t -> mergeUpdatePath cs t li up = Ok t' ->
  shaped k t' /\ merged cs k t t' (designated li) up.
Proof.
  intros Sh H. pose proof (merge_in_range _ _ _ _ _ _ Sh H) as Hli. rewrite (mergeUpdatePath_unfold cs k) in H by auto.
  set (p := leafPath k (designated li)) in *. cbn zeta in H.
  destruct (Nat.eq_dec (length (filtered k t p)) (length (up_nodes up))) as [El|Nl].
  - destruct (prepare k t (designated li) (up_nodes up) Sh Hli El) as (t1 & t2 & E1 & Ef & E2 & Sh2 & K2 & B2 & O2). fold p in E1, Ef, E2, K2, B2, O2.
    rewrite E1 in H. cbn [rbind] in H. rewrite Ef in H. cbn [rbind] in H.
    apply rbind_ok in H. destruct H as (? & _ & H). rewrite E2 in H. cbn [rbind] in H.
    apply rbind_ok in H. destruct H as ([t3 h] & H3 & H). apply rbind_ok in H. destruct H as (? & Hg & H).
    apply guard_ok in Hg. apply bytes_eqb_true in Hg.
    destruct (mergeParentHashes_spec cs k p (leafPath_in _ _) (filtered k t p) (up_nodes up) t2 Sh2 K2 (filtered_NoDup _ _ _)
               (fun a s Hin => filtered_In _ _ _ _ _ Hin) _ _ H3) as (Sh3 & L3 & O3).
    exact (merged_of_steps cs k t t2 t3 t' (designated li) up h Sh Hli Sh2 B2 O2 Sh3 L3 O3 Hg H).
  - exfalso. destruct (blank_path k t p (shaped_full _ _ Sh) (leafPath_in _ _)) as (t1 & E1 & F1 & B1 & O1).
    assert (Sh1 : shaped k t1).
    { split; [assumption|]. intros q n Hq E. destruct (above_dec q p) as [Ha|Ha]; [rewrite B1 in E by auto; discriminate|].
      rewrite O1 in E by auto. now apply Sh. }
    assert (Ef : filtered k t1 p = filtered k t p) by (apply filtered_ext; auto; apply leafPath_in).
    rewrite E1 in H. cbn [rbind] in H. rewrite (filteredDirectPath_ok k t1 p Sh1 (leafPath_in _ _)), Ef in H. cbn [rbind] in H.
    apply rbind_ok in H. destruct H as (? & Hg & _). apply guard_ok in Hg. apply N.eqb_eq in Hg. rewrite !lenN_map in Hg. unfold lenN in Hg. lia.
Qed.

Theorem mergeUpdatePath_complete cs k t li up t' d : crypto_ok C -> cipherSuiteDescriptions cs = Some d ->
  shaped k t -> encodable t -> encodable_path up ->
  merged cs k t t' (designated li) up -> mergeUpdatePath cs t li up = Ok t'.
Proof.
  intros OK Hd Sh He Hep M. destruct M as (F' & Hli & A' & L' & B' & O'). rewrite (mergeUpdatePath_unfold cs k) by auto.
  set (p := leafPath k (designated li)) in *. cbn zeta. pose proof (leafPath_in k (designated li)) as Hp. fold p in Hp.
  pose proof (linked_length _ _ _ _ _ _ L') as El.
  destruct (prepare k t (designated li) (up_nodes up) Sh Hli El) as (t1 & t2 & E1 & Ef & E2 & Sh2 & K2 & B2 & O2). fold p in E1, Ef, E2, K2, B2, O2.
  rewrite E1. cbn [rbind]. rewrite Ef. cbn [rbind]. rewrite !lenN_map. unfold lenN at 1 2. rewrite El, N.eqb_refl. cbn [guard rbind].
  rewrite E2. cbn [rbind].
  assert (Hin : forall a s, In (a, s) (filtered k t p) -> exists b r, p = a ++ b :: r /\ s = a ++ [negb b]) by (intros; eapply filtered_In; eauto).
  assert (Henc : forall q n, in_tree k q -> q <> p -> ~ above q p -> at_path k t2 q = Some n -> exists e, putNode n = Ok e).
  { intros q n Hq Hne Ha E. rewrite O2 in E by auto. apply He. unfold at_path in E. destruct (nth_error t _) eqn:En; [|discriminate]. subst. eapply nth_error_In; eauto. }
  destruct (mergeParentHashes_defined cs k p Hp d OK Hd (filtered k t p) (up_nodes up) t2 Sh2 K2 (filtered_NoDup _ _ _) Hep Hin Henc) as (t3 & h & E3).
  rewrite E3. cbn [rbind].
  destruct (mergeParentHashes_spec cs k p Hp (filtered k t p) (up_nodes up) t2 Sh2 K2 (filtered_NoDup _ _ _) Hin _ _ E3) as (Sh3 & L3 & O3).
  destruct (linked_unique cs k p t3 t' Hp (filtered k t p) (up_nodes up) h (ln_parentHash (up_leafNode up))) as [-> Eq]; auto.
  { intros a s H. eapply filtered_beside; eauto. }
  { intros q Hq Hne Ha. rewrite O3, O2, O'; auto. intros H. apply filtered_above in H. contradiction. }
  rewrite (proj2 (bytes_eqb_true _ _) eq_refl). cbn [guard rbind].
  destruct (set_path k t3 p (Some (NLeaf (up_leafNode up))) (shaped_full _ _ Sh3) Hp) as (t4 & E4 & F4 & A4 & O4).
  rewrite E4. f_equal. apply (full_ext k); auto. intros q Hq. destruct (path_eq_dec q p) as [->|Hne]; [congruence|].
  rewrite O4 by auto. destruct (above_dec q p) as [Ha|Ha].
  - destruct (in_dec path_eq_dec q (map fst (filtered k t p))) as [Hi|Hi]; [auto|]. rewrite O3, B2, B' by auto. reflexivity.
  - rewrite O3, O2, O'; auto. intros H. apply filtered_above in H. contradiction.
Qed.
End WithCrypto.

(** ** On the heap *)
Lemma writeBack_ok v x h t : proper h t -> lenN v = lenN t -> x < lenN t ->
  exists h' t', writeBack v (h, t) x = Ok (h', t') /\ proper h' t' /\ (exists e, h' = h ++ e) /\ lenN t' = lenN t /\
    forall y, getN (deref h' t') y = if y =? x then getN v y else getN (deref h t) y.
Proof.
  intros P Lv Hx. unfold writeBack, alloc. cbn [fst snd].
  destruct (getN_in v x ltac:(lia)) as (o & E). rewrite E. cbn [rbind]. destruct o as [n|].
  - destruct (setN t x (Some (length h))) as [t'| | |] eqn:Es; try (rewrite setN_in in Es by auto; discriminate). cbn [rbind].
    exists (h ++ [n]), t'. pose proof (setN_len _ _ _ _ Es) as L'. destruct P as [HP HA]. splits; eauto.
    + split; [|eapply apart_setN_fresh; eauto]. apply (pointers_setN _ t x (Some (length h)) t'); [|intros p Hp; injection Hp as <-; rewrite app_length; cbn; lia|exact Es].
      intros p Hp. rewrite app_length. apply HP in Hp. lia.
    + intros y. rewrite getN_deref, (getN_setN _ _ _ _ _ Es). destruct (N.eqb_spec y x) as [->|Hne].
      * cbn. rewrite E, nth_error_app2, Nat.sub_diag by lia. reflexivity.
      * rewrite <- getN_deref. now rewrite deref_alloc.
  - destruct (setN t x None) as [t'| | |] eqn:Es; try (rewrite setN_in in Es by auto; discriminate). cbn [rbind].
    exists h, t'. pose proof (setN_len _ _ _ _ Es) as L'. splits; auto.
    + destruct P. split; [eapply pointers_setN; eauto; intros; discriminate|eapply apart_setN_None; eauto].
    + exists []. now rewrite app_nil_r.
    + intros y. rewrite getN_deref, (getN_setN _ _ _ _ _ Es). destruct (N.eqb_spec y x) as [->|Hne]; [now rewrite E|]. now rewrite <- getN_deref.
Qed.

Lemma writeBacks_ok v xs : forall h t, proper h t -> lenN v = lenN t -> (forall x, In x xs -> x < lenN t) ->
  exists h' t', foldM (writeBack v) (h, t) xs = Ok (h', t') /\ proper h' t' /\ (exists e, h' = h ++ e) /\ lenN t' = lenN t /\
    forall y, getN (deref h' t') y = if memN y xs then getN v y else getN (deref h t) y.
Proof.
  induction xs as [|x xs IH]; intros h t P Lv Hx; cbn [foldM].
  - exists h, t. splits; auto. exists []. now rewrite app_nil_r.
  - destruct (writeBack_ok v x h t P Lv (Hx x (or_introl eq_refl))) as (h1 & t1 & -> & P1 & (e1 & ->) & L1 & G1). cbn [rbind].
    destruct (IH (h ++ e1) t1 P1 ltac:(congruence)) as (h2 & t2 & -> & P2 & (e2 & ->) & L2 & G2).
    { intros y Hy. rewrite L1. apply Hx. now right. }
    exists ((h ++ e1) ++ e2), t2. splits; auto; try congruence.
    + exists (e1 ++ e2). now rewrite app_assoc.
    + intros y. rewrite G2, G1. unfold memN. cbn [existsb]. destruct (y =? x); cbn [orb]; destruct (existsb (N.eqb y) xs); reflexivity.
Qed.

Lemma getN_ext {A} (l1 l2 : list A) : lenN l1 = lenN l2 -> (forall y, y < lenN l1 -> getN l1 y = getN l2 y) -> l1 = l2.
Proof.
  intros L H. apply nth_error_ext. intros i. destruct (Nat.lt_ge_cases i (length l1)) as [Hi|Hi].
  - specialize (H (N.of_nat i) ltac:(unfold lenN; lia)).
    destruct (getN_in l1 (N.of_nat i) ltac:(unfold lenN; lia)) as (a & Ha). pose proof Ha as Hb. rewrite H in Hb.
    apply getN_ok in Ha, Hb. rewrite Nat2N.id in *. congruence.
  - rewrite (proj2 (nth_error_None l1 i)) by lia. symmetry. apply nth_error_None. unfold lenN in L. lia.
Qed.

(** On a shaped tree, the heap version computes the same value, in fresh
    nodes. *)
Theorem mergeH_value {C : crypto} cs k h t li up : proper h t -> shaped k (deref h t) ->
  (forall v, mergeUpdatePath cs (deref h t) li up = Ok v ->
     exists h' t', mergeUpdatePathH cs h t li up = Ok (h', t') /\ deref h' t' = v /\ proper h' t' /\ exists e, h' = h ++ e) /\
  (is_ok (mergeUpdatePath cs (deref h t) li up) = false -> forall r, mergeUpdatePathH cs h t li up <> Ok r).
Proof.
  intros P Sh. unfold mergeUpdatePathH. split.
  - intros v E. rewrite E. cbn [rbind]. pose proof (mergeUpdatePath_sound cs k _ _ _ _ Sh E) as [Sh' M].
    destruct M as (F' & Hli & A' & L' & B' & O'). rewrite nodeIndexOf_designated.
    rewrite <- (numLeaves_deref h t), (leaf_directPath k) by (auto; apply Sh). cbn [rbind].
    rewrite <- (leafPath_number k _ Hli). set (p := leafPath k (designated li)) in *.
    assert (Lt : lenN t = node_count k) by (rewrite <- (lenN_deref h); apply Sh).
    pose proof (leafPath_in k (designated li)) as Hp. fold p in Hp.
    destruct (writeBacks_ok v (number k p :: map (number k) (proper_ancestors p)) h t P) as (h' & t' & E2 & P2 & Ex & L2 & G2).
    { rewrite Lt. apply F'. }
    { rewrite Lt. intros x [<-|Hx]; [now apply number_lt|eapply dp_lt; eauto]. }
    exists h', t'. splits; auto. apply getN_ext; [rewrite lenN_deref, L2, Lt; symmetry; apply F'|].
    intros y Hy. rewrite G2. destruct (memN y _) eqn:M; [reflexivity|].
    assert (Hyk : y < node_count k) by (rewrite lenN_deref, L2 in Hy; lia).
    destruct (number_onto k y Hyk) as (q & Hq & <-).
    rewrite (at_path_getN k v q F' Hq), (at_path_getN k _ q (shaped_full _ _ Sh) Hq). f_equal. symmetry. apply O'; auto.
    + intros ->. unfold memN in M. cbn [existsb] in M. now rewrite N.eqb_refl in M.
    + intros Ha. apply memN_false in M. apply M. right. apply dp_In; auto.
  - intros Hn r H. apply rbind_ok in H. destruct H as (v & E & _). rewrite E in Hn. discriminate.
Qed.

Corollary mergeH_inv {C : crypto} cs k h t li up h' t' : proper h t -> shaped k (deref h t) -> mergeUpdatePathH cs h t li up = Ok (h', t') ->
  mergeUpdatePath cs (deref h t) li up = Ok (deref h' t') /\ proper h' t' /\ exists e, h' = h ++ e.
Proof.
  intros P Sh H. destruct (mergeH_value cs k h t li up P Sh) as [H1 H2].
  destruct (mergeUpdatePath cs (deref h t) li up) as [v| | |] eqn:E; try (exfalso; exact (H2 eq_refl _ H)).
  destruct (H1 v eq_refl) as (h2 & t2 & E2 & D & P2 & Ex). rewrite E2 in H. apply Ok_inj in H. injection H as <- <-. rewrite D. auto.
Qed.
