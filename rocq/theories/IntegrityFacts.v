(** Verification of ratchet trees *)
From Verif Require Export LifetimeFacts MergeFacts GroupFacts TreeStepFacts.

(** ** The members *)
Lemma getLeaf_at k t li : shaped k t -> li < leaf_count k -> getLeaf t li = Ok (leaf_at t li).
Proof.
  intros Sh H. pose proof (shaped_full _ _ Sh) as F. unfold getLeaf.
  rewrite nodeIndexOf_designated, (designated_leaf k) by (auto; apply F). rewrite (at_leaf k) by assumption. cbn [rbind].
  rewrite (shaped_leaf k) by assumption. now destruct (leaf_at t li).
Qed.
Definition leavesOf (t : ratchetTree) (lis : list N) : list (N * leafNode) :=
  flat_map (fun li => match leaf_at t li with Some l => [(li, l)] | None => [] end) lis.
Lemma leavesOf_In t lis li l : In (li, l) (leavesOf t lis) <-> In li lis /\ leaf_at t li = Some l.
Proof.
  unfold leavesOf. rewrite in_flat_map. split.
  - intros (x & Hx & H). destruct (leaf_at t x) eqn:E; [|destruct H]. destruct H as [H|[]]. injection H as <- <-. auto.
  - intros [H1 H2]. exists li. rewrite H2. cbn. auto.
Qed.
Lemma membersFrom_ok k t lis : shaped k t -> (forall li, In li lis -> li < leaf_count k) -> membersFrom t lis = Ok (leavesOf t lis).
Proof.
  intros Sh. induction lis as [|li r IH]; intros H; [reflexivity|]. cbn [membersFrom leavesOf flat_map].
  rewrite (getLeaf_at k) by (auto; apply H; cbn; auto). cbn [rbind]. rewrite IH by (intros; apply H; cbn; auto). cbn [rbind].
  now destruct (leaf_at t li).
Qed.
Lemma leaf_at_range k t li l : full k t -> leaf_at t li = Some l -> li < leaf_count k.
Proof.
  intros F H. apply (leaf_in_array k t li F). unfold leaf_at in H.
  destruct (nth_error t (N.to_nat (2 * li))) eqn:E; [|discriminate]. assert (nth_error t (N.to_nat (2 * li)) <> None) by congruence.
  apply nth_error_Some in H0. unfold lenN. lia.
Qed.
Definition allLeaves (t : ratchetTree) : list (N * leafNode) := leavesOf t (upto (numLeaves t)).
Lemma members_ok k t : shaped k t -> members t = Ok (allLeaves t).
Proof.
  intros Sh. unfold members. pose proof (shaped_full _ _ Sh) as [Hk Ht]. apply (membersFrom_ok k); auto.
  rewrite (numLeaves_tree t k Hk Ht). intros li. apply upto_In.
Qed.
Lemma allLeaves_In k t li l : full k t -> In (li, l) (allLeaves t) <-> leaf_at t li = Some l.
Proof.
  intros F. unfold allLeaves. rewrite leavesOf_In, (numLeaves_tree t k (proj1 F) (proj2 F)), upto_In. split; [tauto|].
  intros H. split; [eapply leaf_at_range; eauto|assumption].
Qed.
Lemma leavesOf_fst t lis : map fst (leavesOf t lis) = filter (fun li => match leaf_at t li with Some _ => true | None => false end) lis.
Proof. induction lis as [|li r IH]; [reflexivity|]. cbn. destruct (leaf_at t li); cbn; now rewrite <- IH. Qed.
Lemma allLeaves_NoDup t : NoDup (map fst (allLeaves t)).
Proof. unfold allLeaves. rewrite leavesOf_fst. apply NoDup_filter, upto_NoDup. Qed.

(** ** Supported credential types *)
Lemma count_listed {A} (f : A -> list N) ms ct : (forall m, In m ms -> NoDup (f m)) ->
  length (filter (N.eqb ct) (flat_map f ms)) = length (filter (fun m => memN ct (f m)) ms).
Proof.
  induction ms as [|m ms IH]; intros H; [reflexivity|]. cbn [flat_map filter]. rewrite filter_app, app_length, IH by (intros; apply H; cbn; auto).
  enough (G : length (filter (N.eqb ct) (f m)) = if memN ct (f m) then 1%nat else 0%nat) by (rewrite G; destruct (memN ct (f m)); reflexivity).
  specialize (H m (or_introl eq_refl)). revert H. induction (f m) as [|x l IHl]; intros H; [reflexivity|].
  inversion H as [|? ? Hx Hl]; subst. cbn [filter]. unfold memN in *. cbn [existsb]. destruct (N.eqb_spec ct x) as [->|Hn]; cbn [orb].
  - cbn [length]. f_equal. rewrite IHl by assumption. destruct (existsb (N.eqb x) l) eqn:E; [|reflexivity]. exfalso. apply Hx. now apply memN_In.
  - now apply IHl.
Qed.
Lemma filter_length_le {A} (f : A -> bool) l : (length (filter f l) <= length l)%nat.
Proof. induction l as [|a l IH]; cbn; [lia|]. destruct (f a); cbn; lia. Qed.
Lemma filter_length_all {A} (f : A -> bool) l : length (filter f l) = length l <-> forall x, In x l -> f x = true.
Proof.
  split.
  - induction l as [|a l IH]; intros H x []; subst; cbn in H.
    + destruct (f x) eqn:E; [reflexivity|]. pose proof (filter_length_le f l). lia.
    + apply IH; auto. destruct (f a); cbn in H; [lia|]. pose proof (filter_length_le f l). lia.
  - induction l as [|a l IH]; intros H; [reflexivity|]. cbn. rewrite H by (cbn; auto). cbn. f_equal. apply IH. intros. apply H. cbn. auto.
Qed.
Theorem supportedCreds_spec k t : shaped k t -> some_member t -> lists_once t ->
  exists creds, supportedCreds t = Ok creds /\ forall ct, In ct creds <-> listed_by_all t ct.
Proof.
  intros Sh (i0 & l0 & H0) Hn. pose proof (shaped_full _ _ Sh) as F. unfold supportedCreds. rewrite (members_ok k) by assumption. cbn [rbind].
  eexists. split; [reflexivity|]. intros ct. rewrite filter_In, Nat.eqb_eq.
  set (f := fun p : N * leafNode => caps_credentials (ln_capabilities (snd p))).
  rewrite (count_listed f).
  2:{ intros [li l] Hm. apply (allLeaves_In k) in Hm; [|assumption]. exact (Hn li l Hm). }
  rewrite filter_length_all. split.
  - intros [_ H] li l Hl. apply memN_In. apply (H (li, l)). now apply (allLeaves_In k).
  - intros H. split.
    + apply in_flat_map. exists (i0, l0). split; [now apply (allLeaves_In k)|]. exact (H _ _ H0).
    + intros [li l] Hm. apply memN_In. apply (H li l). now apply (allLeaves_In k) in Hm.
Qed.

(** ** Leaf nodes *)
Section WithCrypto.
Context {C : crypto}.

Lemma leafNodeVerifySignature_spec cs gid li l : leafNodeVerifySignature cs gid li l = Ok true <-> leaf_signed cs gid li l.
Proof.
  unfold leaf_signed. rewrite <- (put_verify _ _ _ _ _ _ (writes_leafNodeTBS l gid li)) by reflexivity.
  unfold leafNodeVerifySignature, falseOnPutErr. destruct (putLeafNodeTBS l gid li); reflexivity.
Qed.

Lemma guard_iff b e : guard b e = Ok tt <-> b = true.
Proof. destruct b; cbn; split; congruence. Qed.
Lemma rbind_guard {A} b e (k : unit -> res A) a : rbind (guard b e) k = Ok a <-> b = true /\ k tt = Ok a.
Proof. destruct b; cbn; split; try tauto; try (intros [? ?]; congruence); discriminate. Qed.


Lemma later_not_zero now : later_than_1970 now -> timeIsZero now = false.
Proof.
  intros [[_ Hn] H]. unfold timeIsZero. destruct (Z.eqb_spec (t_sec now) 0) as [E|]; [|reflexivity]. exfalso.
  unfold nanos, ninetyDays, unixToInternal in H. rewrite E in H. lia.
Qed.

Lemma leafNodeVerify_spec l o : wf_lifetime_of l -> later_than_1970 (vo_now o) ->
  leafNodeVerify l o = Ok tt <->
  leaf_signed (vo_cipherSuite o) (vo_groupID o) (vo_leafIndex o) l /\
  In (cred_type (ln_credential l)) (vo_supportedCreds o) /\
  (forall lt, ln_lifetime l = Some lt -> current lt (vo_now o) /\ ends_in_time lt) /\
  (forall e, In e (ln_extensions l) -> In (ext_type e) (caps_extensions (ln_capabilities l))) /\
  ~ In (ln_signatureKey l) (vo_signatureKeys o) /\ ~ In (ln_encryptionKey l) (vo_encryptionKeys o).
Proof.
  intros Hw Hl. unfold leafNodeVerify. rewrite <- leafNodeVerifySignature_spec.
  destruct (leafNodeVerifySignature (vo_cipherSuite o) (vo_groupID o) (vo_leafIndex o) l) as [b| | |]; cbn [rbind];
    try (split; [discriminate|intros [H _]; discriminate]).
  rewrite !rbind_guard, guard_iff, memN_In, !negb_true_iff, !memB_false, forallb_forall.
  assert (E1 : match ln_lifetime l with None => true | Some lt => timeIsZero (vo_now o) || lifetimeVerify lt (vo_now o) end = true <->
               forall lt, ln_lifetime l = Some lt -> current lt (vo_now o) /\ ends_in_time lt).
  { rewrite (later_not_zero _ Hl). cbn [orb]. destruct (ln_lifetime l) as [lt|] eqn:E.
    - destruct (Hw lt E) as [H1 H2]. rewrite lifetimeVerify_spec by assumption. split; [intros H lt' E'; injection E' as <-; exact H|intros H; now apply H].
    - split; [intros _ lt' E'; discriminate|reflexivity]. }
  rewrite E1.
  assert (E2 : (forall x, In x (ln_extensions l) -> memN (ext_type x) (caps_extensions (ln_capabilities l)) = true) <->
               (forall e, In e (ln_extensions l) -> In (ext_type e) (caps_extensions (ln_capabilities l)))).
  { split; intros H e He; apply memN_In, H, He. }
  rewrite E2. assert (E3 : b = true <-> Ok b = Ok true) by (split; [now intros ->|now intros [=]]). rewrite E3. tauto.
Qed.

(** ** The loop over the leaves *)
Definition leaf_ok (ctx : groupContext) (creds : list N) (now : gotime) (p : N * leafNode) : Prop :=
  leaf_signed (gc_cipherSuite ctx) (gc_groupID ctx) (fst p) (snd p) /\
  In (cred_type (ln_credential (snd p))) creds /\
  (forall lt, ln_lifetime (snd p) = Some lt -> current lt now /\ ends_in_time lt) /\
  (forall e, In e (ln_extensions (snd p)) -> In (ext_type e) (caps_extensions (ln_capabilities (snd p)))).
Definition sigKeysOf (l : list (N * leafNode)) : list bytes := rev (map (fun p => ln_signatureKey (snd p)) l).
Definition encKeysOf (l : list (N * leafNode)) : list bytes := rev (map (fun p => ln_encryptionKey (snd p)) l).

Lemma rev_cons_app {A} (a : A) l r : rev (a :: l) ++ r = rev l ++ a :: r.
Proof. cbn. now rewrite <- app_assoc. Qed.

Lemma verifyLeaves_spec k t ctx creds now : shaped k t -> later_than_1970 now ->
  (forall li l, leaf_at t li = Some l -> wf_lifetime_of l) ->
  forall lis sk ek r, (forall li, In li lis -> li < leaf_count k) -> NoDup sk -> NoDup ek ->
  verifyLeaves t ctx creds now lis sk ek = Ok r <->
  r = (sigKeysOf (leavesOf t lis) ++ sk, encKeysOf (leavesOf t lis) ++ ek) /\
  Forall (leaf_ok ctx creds now) (leavesOf t lis) /\
  NoDup (sigKeysOf (leavesOf t lis) ++ sk) /\ NoDup (encKeysOf (leavesOf t lis) ++ ek).
Proof.
  intros Sh Hnow Hw. induction lis as [|li lis IH]; intros sk ek r Hr Hs He.
  - cbn. split; [intros H; apply Ok_inj in H; auto|intros (-> & _); reflexivity].
  - cbn [verifyLeaves leavesOf flat_map]. rewrite (getLeaf_at k) by (auto; apply Hr; cbn; auto). cbn [rbind].
    assert (Hr' : forall li, In li lis -> li < leaf_count k) by (intros; apply Hr; cbn; auto).
    destruct (leaf_at t li) as [l|] eqn:El; [|cbn [app]; now apply IH]. fold (leavesOf t lis). cbn [app].
    unfold sigKeysOf, encKeysOf. cbn [map snd]. rewrite !rev_cons_app. fold (sigKeysOf (leavesOf t lis)) (encKeysOf (leavesOf t lis)).
    set (o := mkVerifyOptions (gc_cipherSuite ctx) (gc_groupID ctx) li creds sk ek now).
    pose proof (leafNodeVerify_spec l o (Hw _ _ El) Hnow) as S. destruct (leafNodeVerify l o) as [[]|e|e|] eqn:Ev; cbn [rbind].
    + destruct (proj1 S eq_refl) as (S1 & S2 & S3 & S4 & S5 & S6). cbn [o vo_signatureKeys vo_encryptionKeys] in S5, S6.
      rewrite (IH (ln_signatureKey l :: sk) (ln_encryptionKey l :: ek) r Hr') by (constructor; auto).
      assert (G : leaf_ok ctx creds now (li, l)) by (unfold leaf_ok; cbn [fst snd]; auto).
      split; intros (H1 & H2 & H3 & H4); (splits; [exact H1| |exact H3|exact H4]); [constructor; auto|now inversion H2].
    + split; [discriminate|]. intros (_ & H2 & H3 & H4). exfalso. enough (Err e = Ok tt) by discriminate. apply S.
      inversion H2 as [|? ? (G1 & G2 & G3 & G4) _]. cbn [fst snd] in *. splits; auto; cbn [o vo_signatureKeys vo_encryptionKeys];
        [apply NoDup_remove_2 in H3; intros X; apply H3, in_app_iff; auto|apply NoDup_remove_2 in H4; intros X; apply H4, in_app_iff; auto].
    + split; [discriminate|]. intros (_ & H2 & H3 & H4). exfalso. enough (Panic e = Ok tt) by discriminate. apply S.
      inversion H2 as [|? ? (G1 & G2 & G3 & G4) _]. cbn [fst snd] in *. splits; auto; cbn [o vo_signatureKeys vo_encryptionKeys];
        [apply NoDup_remove_2 in H3; intros X; apply H3, in_app_iff; auto|apply NoDup_remove_2 in H4; intros X; apply H4, in_app_iff; auto].
    + split; [discriminate|]. intros (_ & H2 & H3 & H4). exfalso. enough (Hang = Ok tt) by discriminate. apply S.
      inversion H2 as [|? ? (G1 & G2 & G3 & G4) _]. cbn [fst snd] in *. splits; auto; cbn [o vo_signatureKeys vo_encryptionKeys];
        [apply NoDup_remove_2 in H3; intros X; apply H3, in_app_iff; auto|apply NoDup_remove_2 in H4; intros X; apply H4, in_app_iff; auto].
Qed.

End WithCrypto.

(** ** Unmerged leaves *)
(** All nodes strictly between [p] and [q] that are not blank list [u]. *)
Definition listed_between (k : nat) (t : ratchetTree) (p q : path) (u : N) : Prop :=
  forall a n, above p a -> above a q -> at_path k t a = Some n -> exists qn, n = NParent qn /\ In u (pn_unmergedLeaves qn).

Lemma above_snoc a p b : above a (p ++ [b]) <-> a = p \/ above a p.
Proof.
  split.
  - intros H. apply above_In in H. rewrite proper_ancestors_snoc in H. destruct H as [<-|H]; auto. right. now apply above_In.
  - intros H. apply above_In. rewrite proper_ancestors_snoc. destruct H as [->|H]; [now left|]. right. now apply above_In.
Qed.

Lemma verifyUnmergedLeaf_eq fuel t n p u x : verifyUnmergedLeaf fuel t n p u x =
  match parent n x with
  | None => Err "mls: unmerged leaf is not a descendant of the parent node"
  | Some x' =>
    if x' =? p then Ok tt else
    let! o := getN t x' in
    let! _ := match o with
              | None => Ok tt
              | Some (NLeaf _) => Panic "nil pointer dereference"
              | Some (NParent q) => guard (hasUnmergedLeaf q u) "mls: non-blank intermediate node is missing unmerged leaf"
              end in
    match fuel with
    | O => Hang
    | S f => verifyUnmergedLeaf f t n p u x'
    end
  end.
Proof. destruct fuel; reflexivity. Qed.

Lemma verifyUnmergedLeaf_walk k t p u : shaped k t -> in_tree k p -> forall q fuel, in_tree k q -> (length q <= fuel)%nat ->
  verifyUnmergedLeaf fuel t (leaf_count k) (number k p) u (number k q) = Ok tt <-> above p q /\ listed_between k t p q u.
Proof.
  intros Sh Hp. pose proof (shaped_full _ _ Sh) as F. pose proof (proj1 F) as Hk.
  induction q as [|b q IH] using rev_ind; intros fuel Hq Hf; rewrite verifyUnmergedLeaf_eq.
  - rewrite (path_parent_root k Hk). split; [discriminate|]. intros [H _]. apply above_length in H. cbn in H. lia.
  - assert (Hlt : (length q < k)%nat) by (unfold in_tree in Hq; rewrite app_length in Hq; cbn in Hq; lia).
    assert (Hq' : in_tree k q) by (unfold in_tree; lia).
    rewrite (path_parent k Hk) by assumption. destruct (N.eqb_spec (number k q) (number k p)) as [E|E].
    + apply (number_inj k) in E; auto. subst q. split; [intros _|reflexivity]. split; [apply above_snoc; auto|].
      intros a n H1 H2 _. apply above_snoc in H2. destruct H2 as [->|H2]; [now apply above_not_self in H1|].
      exfalso. apply (above_not_self p). eapply above_trans; eauto.
    + assert (Hne : p <> q) by congruence. rewrite (at_path_getN k) by assumption. cbn [rbind].
      destruct fuel as [|fuel]; [rewrite app_length in Hf; cbn in Hf; lia|].
      assert (Hf' : (length q <= fuel)%nat) by (rewrite app_length in Hf; cbn in Hf; lia). specialize (IH fuel Hq' Hf').
      assert (G : above p (q ++ [b]) /\ listed_between k t p (q ++ [b]) u <->
                  (forall n, at_path k t q = Some n -> exists qn, n = NParent qn /\ In u (pn_unmergedLeaves qn)) /\
                  above p q /\ listed_between k t p q u).
      { unfold listed_between. split.
        - intros [H1 H2]. apply above_snoc in H1. destruct H1 as [->|H1]; [congruence|]. splits; auto.
          + intros n Hn. apply (H2 q n); auto. apply above_snoc. auto.
          + intros a n Ha1 Ha2. apply H2; auto. apply above_snoc. auto.
        - intros (H1 & H2 & H3). split; [apply above_snoc; auto|]. intros a n Ha1 Ha2 Hn. apply above_snoc in Ha2.
          destruct Ha2 as [->|Ha2]; eauto. }
      rewrite G, <- IH. destruct (at_path k t q) as [[l|pn]|] eqn:Eq; cbn [rbind].
      * split; [discriminate|]. intros [H _]. destruct (H _ eq_refl) as (qn & H1 & _). discriminate.
      * unfold hasUnmergedLeaf. rewrite rbind_guard, memN_In. split; intros [H1 H2]; split; auto.
        -- intros n En. injection En as <-. eauto.
        -- destruct (H1 _ eq_refl) as (qn & E1 & E2). injection E1 as <-. assumption.
      * split; [intros H; split; [intros n En; discriminate|assumption]|tauto].
Qed.

Lemma parent_other n m x y : x <> root n -> parent m x = Some y -> parent n x = Some y.
Proof.
  intros H1 H2. unfold parent in *. rewrite (proj2 (N.eqb_neq x (root n))) by assumption. destruct (x =? root m); [discriminate|assumption].
Qed.
(** A leaf beyond the tree leads to nodes beyond the tree. *)
Lemma parent_beyond k li : fits k -> leaf_count k <= li < 2 ^ 31 -> exists y, parent (leaf_count k) (2 * li) = Some y /\ node_count k <= y.
Proof.
  intros Hk [H1 H2]. exists (nd 1 (li / 2)). pose proof (node_leaf_count k). split.
  - apply (parent_other _ (2 ^ 31)).
    + rewrite (path_root k Hk). pose proof (number_lt k [] ltac:(unfold in_tree; cbn; lia)). lia.
    + rewrite <- nd_0. apply (parent_nd 31 0 li); try lia. split; [lia|]. change (2 ^ (31 - 0)) with (2 ^ 31). assumption.
  - change 1 with (0 + 1) at 1. rewrite nd_S, nd_0. pose proof (N.div_mod li 2 ltac:(lia)). pose proof (N.mod_lt li 2 ltac:(lia)). lia.
Qed.

Lemma verifyUnmergedLeaf_beyond k t p u fuel : full k t -> in_tree k p -> leaf_count k <= designated u ->
  verifyUnmergedLeaf fuel t (leaf_count k) (number k p) u (nodeIndexOf u) <> Ok tt.
Proof.
  intros [Hk Ht] Hp Hu. rewrite nodeIndexOf_designated, verifyUnmergedLeaf_eq.
  destruct (parent_beyond k (designated u) Hk) as (y & -> & Hy); [split; [assumption|]; unfold designated; apply N.mod_lt; discriminate|].
  pose proof (number_lt k p Hp). rewrite (proj2 (N.eqb_neq y (number k p))) by lia. unfold getN. rewrite (proj2 (N.ltb_ge y (lenN t))) by lia. discriminate.
Qed.

Lemma verifyUnmergedLeaf_spec k t p u fuel : shaped k t -> in_tree k p -> (32 <= fuel)%nat ->
  verifyUnmergedLeaf fuel t (leaf_count k) (number k p) u (nodeIndexOf u) = Ok tt <->
  designated u < leaf_count k /\ above p (leafPath k (designated u)) /\ listed_between k t p (leafPath k (designated u)) u.
Proof.
  intros Sh Hp Hf. destruct (N.lt_ge_cases (designated u) (leaf_count k)) as [H|H].
  - rewrite nodeIndexOf_designated, <- (leafPath_number k) by assumption.
    rewrite verifyUnmergedLeaf_walk; auto; [tauto|apply leafPath_in|]. rewrite leafPath_length.
    pose proof (proj1 (shaped_full _ _ Sh)) as Hk. unfold fits in Hk. lia.
  - split; [intros E; exfalso; revert E; apply verifyUnmergedLeaf_beyond; auto; now apply shaped_full|intros [H1 _]; lia].
Qed.

Lemma foldM_unit {A} (f : A -> res unit) l : foldM (fun _ a => f a) tt l = Ok tt <-> forall a, In a l -> f a = Ok tt.
Proof.
  induction l as [|a l IH]; cbn [foldM]; [split; [intros _ a []|reflexivity]|]. split.
  - intros H. apply rbind_ok in H. destruct H as ([] & H1 & H2). intros b [<-|Hb]; [assumption|]. now apply IH.
  - intros H. rewrite (H a) by (cbn; auto). cbn [rbind]. apply IH. intros b Hb. apply H. cbn. auto.
Qed.

(** ** The loop over the parent nodes *)
Definition parentsOf (t : ratchetTree) (xs : list N) : list (N * parentNode) :=
  flat_map (fun x => match nth_error t (N.to_nat x) with Some (Some (NParent p)) => [(x, p)] | _ => [] end) xs.
Lemma parentsOf_In t xs x p : In (x, p) (parentsOf t xs) <-> In x xs /\ nth_error t (N.to_nat x) = Some (Some (NParent p)).
Proof.
  unfold parentsOf. rewrite in_flat_map. split.
  - intros (y & Hy & H). destruct (nth_error t (N.to_nat y)) as [[[l|q]|]|] eqn:E; try destruct H as []. injection H as <- <-. auto. destruct H.
  - intros [H1 H2]. exists x. rewrite H2. cbn. auto.
Qed.
Lemma parentsOf_fst t xs : map fst (parentsOf t xs) = filter (fun x => match nth_error t (N.to_nat x) with Some (Some (NParent _)) => true | _ => false end) xs.
Proof. induction xs as [|x xs IH]; [reflexivity|]. cbn. destruct (nth_error t (N.to_nat x)) as [[[l|q]|]|]; cbn; now rewrite <- IH. Qed.
Definition parentKeysOf (l : list (N * parentNode)) : list bytes := rev (map (fun p => pn_encryptionKey (snd p)) l).

Definition parent_ok (k : nat) (t : ratchetTree) (xp : N * parentNode) : Prop :=
  forall u, In u (pn_unmergedLeaves (snd xp)) -> verifyUnmergedLeaf 40 t (leaf_count k) (fst xp) u (nodeIndexOf u) = Ok tt.

Lemma verifyParents_spec k t : shaped k t -> forall xs ek, (forall x, In x xs -> x < lenN t) -> NoDup ek ->
  verifyParents t xs ek = Ok tt <-> Forall (parent_ok k t) (parentsOf t xs) /\ NoDup (parentKeysOf (parentsOf t xs) ++ ek).
Proof.
  intros Sh. pose proof (shaped_full _ _ Sh) as F. induction xs as [|x xs IH]; intros ek Hx He.
  - cbn. split; [intros _; split; [constructor|assumption]|reflexivity].
  - cbn [verifyParents]. destruct (getN_in t x) as (o & Ho); [apply Hx; cbn; auto|]. rewrite Ho. cbn [rbind]. apply getN_ok in Ho.
    assert (Hx' : forall x, In x xs -> x < lenN t) by (intros; apply Hx; cbn; auto).
    cbn [parentsOf flat_map]. rewrite Ho. fold (parentsOf t xs). destruct o as [[l|p]|]; cbn [app]; [now apply IH| |now apply IH].
    rewrite (numLeaves_tree t k (proj1 F) (proj2 F)). unfold parentKeysOf. cbn [map snd]. rewrite rev_cons_app. fold (parentKeysOf (parentsOf t xs)).
    rewrite Forall_cons_iff. unfold parent_ok at 1. cbn [fst snd].
    rewrite <- (foldM_unit (fun li => verifyUnmergedLeaf 40 t (leaf_count k) x li (nodeIndexOf li))).
    destruct (foldM _ tt (pn_unmergedLeaves p)) as [[]| | |]; cbn [rbind]; try (split; [discriminate|intros [[? _] _]; discriminate]).
    rewrite rbind_guard, negb_true_iff, memB_false. split.
    + intros [H1 H2]. apply IH in H2; [|assumption|now constructor]. tauto.
    + intros [[_ H1] H2]. assert (Hn : ~ In (pn_encryptionKey p) ek) by (apply NoDup_remove_2 in H2; intros X; apply H2, in_app_iff; auto).
      split; [assumption|]. apply IH; auto. now constructor.
Qed.

(** ** Distinct keys *)
Lemma NoDup_keys {A B} (l : list (A * B)) : NoDup (map fst l) ->
  NoDup (map snd l) <-> forall i j b, In (i, b) l -> In (j, b) l -> i = j.
Proof.
  induction l as [|[a b] l IH]; intros H; cbn [map fst snd] in *; [split; [intros _ i j b []|constructor]|].
  inversion H as [|? ? Ha Hl]; subst. rewrite NoDup_cons_iff, IH by assumption. split.
  - intros [H1 H2] i j c [E1|H3] [E2|H4]; eauto.
    + congruence.
    + injection E1 as <- <-. exfalso. apply H1. apply in_map_iff. exists (j, b). auto.
    + injection E2 as <- <-. exfalso. apply H1. apply in_map_iff. exists (i, b). auto.
  - intros H1. split.
    + intros Hb. apply in_map_iff in Hb. destruct Hb as ([i c] & E & Hi). cbn in E. subst c.
      assert (i = a) as -> by (apply (H1 i a b); cbn; auto). apply Ha. apply in_map_iff. exists (a, b). auto.
    + intros i j c H2 H3. apply (H1 i j c); cbn; auto.
Qed.
Lemma NoDup_app_disjoint {A} (a b : list A) : NoDup a -> NoDup b -> (forall x, In x a -> ~ In x b) -> NoDup (a ++ b).
Proof.
  induction a as [|x a IH]; cbn; intros Ha Hb H; [assumption|]. inversion Ha; subst. constructor.
  - rewrite in_app_iff. intros [X|X]; [contradiction|]. apply (H x); auto.
  - apply IH; auto.
Qed.

Lemma sigKeys_distinct k t : full k t -> NoDup (sigKeysOf (allLeaves t)) <-> distinct_signature_keys t.
Proof.
  intros F. unfold sigKeysOf.
  assert (E : NoDup (rev (map (fun p : N * leafNode => ln_signatureKey (snd p)) (allLeaves t))) <->
              NoDup (map snd (map (fun p : N * leafNode => (fst p, ln_signatureKey (snd p))) (allLeaves t)))).
  { rewrite map_map. cbn [snd]. split; intros H.
    - apply NoDup_rev in H. now rewrite rev_involutive in H.
    - now apply NoDup_rev. }
  rewrite E, NoDup_keys by (rewrite map_map; cbn [fst]; apply allLeaves_NoDup).
  unfold distinct_signature_keys. split.
  - intros H i j a b Ha Hb Hk. apply (H i j (ln_signatureKey a)); apply in_map_iff.
    + exists (i, a). split; [reflexivity|]. now apply (allLeaves_In k).
    + exists (j, b). split; [cbn; now rewrite Hk|]. now apply (allLeaves_In k).
  - intros H i j b Hi Hj. apply in_map_iff in Hi, Hj. destruct Hi as ([i' a] & Ei & Hi). destruct Hj as ([j' c] & Ej & Hj).
    cbn [fst snd] in *. apply (allLeaves_In k) in Hi, Hj; auto. injection Ei as <- <-. injection Ej as <- Ej. eapply H; eauto.
Qed.

Definition allParents (t : ratchetTree) : list (N * parentNode) := parentsOf t (upto (lenN t)).
Lemma allParents_In k t x pn : full k t -> In (x, pn) (allParents t) <-> exists p, in_tree k p /\ x = number k p /\ at_path k t p = Some (NParent pn).
Proof.
  intros F. unfold allParents. rewrite parentsOf_In, upto_In. split.
  - intros [H1 H2]. rewrite (proj2 F) in H1. destruct (number_onto k x H1) as (p & Hp & <-). exists p. splits; auto. unfold at_path. now rewrite H2.
  - intros (p & Hp & -> & H). pose proof (number_lt k p Hp). split; [rewrite (proj2 F); assumption|]. unfold at_path in H.
    destruct (nth_error t (N.to_nat (number k p))); congruence.
Qed.

(** All nodes, with their numbers and keys *)
Definition nodeKeys (t : ratchetTree) : list (N * bytes) :=
  rev (map (fun p => (fst p, pn_encryptionKey (snd p))) (allParents t)) ++ rev (map (fun p => (2 * fst p, ln_encryptionKey (snd p))) (allLeaves t)).
Lemma nodeKeys_snd t : map snd (nodeKeys t) = parentKeysOf (allParents t) ++ encKeysOf (allLeaves t).
Proof. unfold nodeKeys, parentKeysOf, encKeysOf. now rewrite map_app, !map_rev, !map_map. Qed.
Lemma nodeKeys_In k t x b : shaped k t -> In (x, b) (nodeKeys t) <->
  exists p n, in_tree k p /\ x = number k p /\ at_path k t p = Some n /\ node_encryptionKey n = b.
Proof.
  intros Sh. pose proof (shaped_full _ _ Sh) as F. unfold nodeKeys. rewrite in_app_iff, <- !in_rev, !in_map_iff. split.
  - intros [([y pn] & E & H)|([li l] & E & H)]; cbn [fst snd] in E; injection E as <- <-.
    + apply (allParents_In k) in H; [|assumption]. destruct H as (p & H1 & H2 & H3). exists p, (NParent pn). auto.
    + apply (allLeaves_In k) in H; [|assumption]. pose proof (leaf_at_range _ _ _ _ F H) as Hr. exists (leafPath k li), (NLeaf l).
      splits; auto; [apply leafPath_in|now rewrite leafPath_number|]. rewrite (shaped_leaf k) by assumption. now rewrite H.
  - intros (p & n & Hp & -> & Hn & <-). destruct n as [l|pn].
    + right. pose proof (proj2 Sh p _ Hp Hn) as HL. cbn in HL. destruct (leafPath_onto k p HL) as [Ep Hv]. exists (val p, l).
      cbn [fst snd]. rewrite <- (leafPath_number k (val p) Hv), <- Ep. split; [reflexivity|]. apply (allLeaves_In k); [assumption|].
      rewrite Ep, (shaped_leaf k) in Hn by assumption. destruct (leaf_at t (val p)); cbn in Hn; congruence.
    + left. exists (number k p, pn). split; [reflexivity|]. apply (allParents_In k); eauto.
Qed.
Lemma NoDup_map_inj {A B} (f : A -> B) l : (forall a b, f a = f b -> a = b) -> NoDup l -> NoDup (map f l).
Proof.
  intros Hf. induction l as [|a l IH]; cbn; intros H; [constructor|]. inversion H; subst. constructor; auto.
  rewrite in_map_iff. intros (b & E & Hb). apply Hf in E. now subst.
Qed.
Lemma nodeKeys_fst k t : shaped k t -> NoDup (map fst (nodeKeys t)).
Proof.
  intros Sh. pose proof (shaped_full _ _ Sh) as F. unfold nodeKeys. rewrite map_app, !map_rev, !map_map. cbn [fst].
  assert (E : map (fun p : N * leafNode => 2 * fst p) (allLeaves t) = map (fun x => 2 * x) (map fst (allLeaves t))) by now rewrite map_map.
  apply NoDup_app_disjoint.
  - apply NoDup_rev. unfold allParents. change (fun p : N * parentNode => fst p) with (@fst N parentNode). rewrite parentsOf_fst. apply NoDup_filter, upto_NoDup.
  - apply NoDup_rev. rewrite E. apply NoDup_map_inj; [intros; lia|apply allLeaves_NoDup].
  - intros x Hx Hy. rewrite <- in_rev in Hx, Hy. rewrite in_map_iff in Hx, Hy. destruct Hx as ([y pn] & E1 & H1). destruct Hy as ([li l] & E2 & H2).
    cbn [fst] in E1, E2. subst y x. unfold allParents in H1. apply parentsOf_In in H1. apply (allLeaves_In k) in H2; [|assumption]. unfold leaf_at in H2.
    destruct H1 as [_ H1]. rewrite H1 in H2. discriminate.
Qed.
Lemma encKeys_distinct k t : shaped k t -> NoDup (parentKeysOf (allParents t) ++ encKeysOf (allLeaves t)) <-> distinct_encryption_keys k t.
Proof.
  intros Sh. rewrite <- nodeKeys_snd, NoDup_keys by now apply (nodeKeys_fst k). unfold distinct_encryption_keys. split.
  - intros H p q n m Hp Hq Hn Hm E. apply (number_inj k); auto. apply (H _ _ (node_encryptionKey n)); apply (nodeKeys_In k); auto.
    + exists p, n. auto.
    + exists q, m. auto.
  - intros H i j b Hi Hj. apply (nodeKeys_In k) in Hi, Hj; auto. destruct Hi as (p & n & H1 & -> & H2 & H3). destruct Hj as (q & m & H4 & -> & H5 & H6).
    f_equal. eapply H; eauto. congruence.
Qed.

Lemma parents_ok k t : shaped k t -> Forall (parent_ok k t) (allParents t) <-> unmerged_below k t.
Proof.
  intros Sh. pose proof (shaped_full _ _ Sh) as F. rewrite Forall_forall. unfold unmerged_below. split.
  - intros H p pn u Hp Hn Hu. assert (Hin : In (number k p, pn) (allParents t)) by (apply (allParents_In k); eauto).
    specialize (H _ Hin u Hu). cbn [fst] in H. apply verifyUnmergedLeaf_spec in H; auto. lia.
  - intros H [x pn] Hin u Hu. cbn [fst snd] in *. apply (allParents_In k) in Hin; [|assumption]. destruct Hin as (p & Hp & -> & Hn).
    apply verifyUnmergedLeaf_spec; auto; [lia|]. exact (H p pn u Hp Hn Hu).
Qed.

(** ** Parent hashes *)
Definition unmerged_in_range (k : nat) (t : ratchetTree) : Prop :=
  forall p pn u, in_tree k p -> at_path k t p = Some (NParent pn) -> In u (pn_unmergedLeaves pn) -> designated u < leaf_count k.

Lemma resolve_value k t : shaped k t -> unmerged_in_range k t -> forall d p fuel, in_tree k p -> (k - length p)%nat = d -> (d <= fuel)%nat ->
  resolveLoop fuel t (number k p) = Ok (map (number k) (resolution k t d p)).
Proof.
  intros Sh U. induction d as [|d IH]; intros p fuel Hp Hd Hf; rewrite (resolve_step k t p Sh Hp); cbn [resolution];
    destruct (at_path k t p) as [[l|pn]|] eqn:E; try reflexivity.
  1, 3: f_equal; cbn [map]; f_equal; rewrite map_map; apply map_ext_in; intros u Hu;
        rewrite leafPath_number by (eapply U; eauto); apply nodeIndexOf_designated.
  - assert (El : length p = k) by (unfold in_tree in *; lia). now rewrite El, Nat.eqb_refl.
  - assert (El : length p <> k) by lia. rewrite (proj2 (Nat.eqb_neq _ _) El). assert (Hlt : (length p < k)%nat) by (unfold in_tree in *; lia).
    destruct fuel as [|fuel]; [lia|].
    rewrite IH; [|now apply snoc_in|rewrite app_length; cbn; lia|lia]. cbn [rbind].
    rewrite IH; [|now apply snoc_in|rewrite app_length; cbn; lia|lia]. cbn [rbind]. now rewrite map_app.
Qed.
Lemma resolve_is k t p : shaped k t -> unmerged_in_range k t -> in_tree k p ->
  resolve t (number k p) = Ok (map (number k) (resolution k t (k - length p) p)).
Proof.
  intros Sh U Hp. rewrite resolve_eq. apply resolve_value; auto. pose proof (proj1 (shaped_full _ _ Sh)) as Hk. unfold fits in Hk. lia.
Qed.
Lemma resolution_in k t : shaped k t -> forall d p q, in_tree k p -> (k - length p)%nat = d -> In q (resolution k t d p) -> in_tree k q.
Proof.
  intros Sh. induction d as [|d IH]; intros p q Hp Hd; cbn [resolution]; destruct (at_path k t p) as [[l|pn]|]; cbn [In].
  1, 4: intros [<-|[]]; assumption.
  1, 3: intros [<-|H]; [assumption|]; apply in_map_iff in H; destruct H as (u & <- & _); apply leafPath_in.
  - intros [].
  - intros H. apply in_app_iff in H. assert (Hlt : (length p < k)%nat) by lia.
    destruct H as [H|H]; eapply IH in H; eauto; try now apply snoc_in. all: rewrite app_length; cbn; lia.
Qed.

Lemma findParentHash_spec k t h : full k t -> forall qs, (forall q, In q qs -> in_tree k q) ->
  exists b, findParentHash t (map (number k) qs) h = Ok b /\
    (b = true <-> exists q n, In q qs /\ at_path k t q = Some n /\ parentHashOf n = h).
Proof.
  intros F. induction qs as [|q qs IH]; intros Hq; cbn [map findParentHash].
  - exists false. split; [reflexivity|]. split; [discriminate|]. intros (q & n & [] & _).
  - rewrite (at_path_getN k) by (auto; apply Hq; cbn; auto). cbn [rbind]. destruct IH as (b & Eb & Hb); [intros; apply Hq; cbn; auto|].
    destruct (at_path k t q) as [n|] eqn:E.
    + fold (parentHashOf n). destruct (bytes_eqb (parentHashOf n) h) eqn:Eh.
      * apply bytes_eqb_true in Eh. exists true. split; [reflexivity|]. split; [intros _|reflexivity]. exists q, n. cbn. auto.
      * exists b. split; [assumption|]. rewrite Hb. split; intros (q' & n' & H1 & H2 & H3); exists q', n'; splits; auto; [now right|].
        destruct H1 as [<-|H1]; [|assumption]. exfalso. rewrite E in H2. injection H2 as <-. apply bytes_eqb_true in H3. congruence.
    + exists b. split; [assumption|]. rewrite Hb. split; intros (q' & n' & H1 & H2 & H3); exists q', n'; splits; auto; [now right|].
      destruct H1 as [<-|H1]; [congruence|assumption].
Qed.

Section WithCrypto2.
Context {C : crypto}.

Definition found (cs : N) (k : nat) (t : ratchetTree) (p : path) (n : parentNode) (b : bool) : Prop :=
  hash_below k t (p ++ [b]) (parent_hash cs (pn_encryptionKey n) (pn_parentHash n)
                      (tree_hash cs k t (pn_unmergedLeaves n) (k - S (length p)) (p ++ [negb b]))).

Lemma find_found k t p b h : shaped k t -> unmerged_in_range k t -> (length p < k)%nat ->
  exists r, resolve t (number k (p ++ [b])) = Ok r /\ exists o, findParentHash t r h = Ok o /\ (o = true <-> hash_below k t (p ++ [b]) h).
Proof.
  intros Sh U Hlt. eexists. split; [apply resolve_is; auto; now apply snoc_in|]. apply findParentHash_spec; [now apply shaped_full|].
  intros q Hq. eapply resolution_in in Hq; eauto. now apply snoc_in.
Qed.

Lemma verifyParentHashAt_ok cs t l r n hl hr pl pr rl rr b1 b2 :
  computeTreeHash cs t l (pn_unmergedLeaves n) = Ok hl -> computeTreeHash cs t r (pn_unmergedLeaves n) = Ok hr ->
  computeParentHash cs n hr = Ok pl -> computeParentHash cs n hl = Ok pr ->
  resolve t l = Ok rl -> findParentHash t rl pl = Ok b1 -> resolve t r = Ok rr -> findParentHash t rr pr = Ok b2 ->
  verifyParentHashAt cs t l r n = Ok (negb (Bool.eqb b1 b2)).
Proof.
  intros H1 H2 H3 H4 H5 H6 H7 H8. unfold verifyParentHashAt. rewrite H1. cbn [rbind]. rewrite H2. cbn [rbind]. rewrite H3. cbn [rbind].
  rewrite H4. cbn [rbind]. rewrite H5. cbn [rbind]. rewrite H6. cbn [rbind]. rewrite H7. cbn [rbind]. rewrite H8. reflexivity.
Qed.
Lemma verifyParentHashAt_hashes cs t l r n b : verifyParentHashAt cs t l r n = Ok b ->
  exists hl hr pl pr, computeTreeHash cs t l (pn_unmergedLeaves n) = Ok hl /\ computeTreeHash cs t r (pn_unmergedLeaves n) = Ok hr /\
  computeParentHash cs n hr = Ok pl /\ computeParentHash cs n hl = Ok pr.
Proof.
  unfold verifyParentHashAt. intros H.
  apply rbind_ok in H. destruct H as (hl & H1 & H). apply rbind_ok in H. destruct H as (hr & H2 & H).
  apply rbind_ok in H. destruct H as (pl & H3 & H). apply rbind_ok in H. destruct H as (pr & H4 & H).
  exists hl, hr, pl, pr. splits; assumption.
Qed.

Lemma parent_hash_valid_found cs k t p n : parent_hash_valid cs k t p n <->
  (found cs k t p n false /\ ~ found cs k t p n true) \/ (~ found cs k t p n false /\ found cs k t p n true).
Proof. reflexivity. Qed.
Lemma negb_eqb_iff b1 b2 : negb (Bool.eqb b1 b2) = true <-> (b1 = true /\ b2 <> true) \/ (b1 <> true /\ b2 = true).
Proof. destruct b1, b2; cbn; intuition congruence. Qed.

Lemma verifyParentHashAt_iff cs k t p n hl hr pl pr : shaped k t -> unmerged_in_range k t -> (length p < k)%nat ->
  computeTreeHash cs t (number k (p ++ [false])) (pn_unmergedLeaves n) = Ok hl -> computeTreeHash cs t (number k (p ++ [true])) (pn_unmergedLeaves n) = Ok hr ->
  computeParentHash cs n hr = Ok pl -> computeParentHash cs n hl = Ok pr ->
  verifyParentHashAt cs t (number k (p ++ [false])) (number k (p ++ [true])) n = Ok true <-> parent_hash_valid cs k t p n.
Proof.
  intros Sh U Hlt H1 H2 H3 H4.
  destruct (find_found k t p false pl Sh U Hlt) as (r1 & R1 & b1 & B1 & F1).
  destruct (find_found k t p true pr Sh U Hlt) as (r2 & R2 & b2 & B2 & F2).
  rewrite (verifyParentHashAt_ok _ _ _ _ _ _ _ _ _ _ _ _ _ H1 H2 H3 H4 R1 B1 R2 B2).
  apply (computeTreeHash_value k) in H1; [|assumption|now apply snoc_in]. apply (computeTreeHash_value k) in H2; [|assumption|now apply snoc_in].
  apply computeParentHash_value in H3, H4. rewrite app_length in H1, H2. cbn [length] in H1, H2. rewrite Nat.add_1_r in H1, H2.
  assert (E1 : b1 = true <-> found cs k t p n false) by (unfold found; cbn [negb]; rewrite <- H2, <- H3; exact F1).
  assert (E2 : b2 = true <-> found cs k t p n true) by (unfold found; cbn [negb]; rewrite <- H1, <- H4; exact F2).
  rewrite parent_hash_valid_found, <- E1, <- E2, <- negb_eqb_iff. split; [apply Ok_inj|now intros ->].
Qed.

Lemma verifyParentHashAt_sound cs k t p n : shaped k t -> unmerged_in_range k t -> (length p < k)%nat ->
  verifyParentHashAt cs t (number k (p ++ [false])) (number k (p ++ [true])) n = Ok true -> parent_hash_valid cs k t p n.
Proof.
  intros Sh U Hlt H. destruct (verifyParentHashAt_hashes _ _ _ _ _ _ H) as (hl & hr & pl & pr & H1 & H2 & H3 & H4).
  exact (proj1 (verifyParentHashAt_iff cs k t p n hl hr pl pr Sh U Hlt H1 H2 H3 H4) H).
Qed.

Lemma putNode_parent_len n e : putNode (NParent n) = Ok e -> lenN (pn_encryptionKey n) < 2 ^ 30 /\ lenN (pn_parentHash n) < 2 ^ 30.
Proof.
  cbn [putNode]. unfold putParentNode. intros H. apply wapp_ok in H. destruct H as (e1 & e2 & _ & H & _).
  apply wapp_ok in H. destruct H as (e3 & e4 & H1 & H & _). apply wapp_ok in H. destruct H as (e5 & e6 & H2 & _).
  apply writeOpaqueVec_ok in H1, H2. tauto.
Qed.

Lemma verifyParentHashAt_complete cs d k t p n : shaped k t -> unmerged_in_range k t -> crypto_ok C -> encodable t -> cipherSuiteDescriptions cs = Some d ->
  (length p < k)%nat -> at_path k t p = Some (NParent n) -> parent_hash_valid cs k t p n ->
  verifyParentHashAt cs t (number k (p ++ [false])) (number k (p ++ [true])) n = Ok true.
Proof.
  intros Sh U OK He Hd Hlt Hn V.
  assert (He' : forall q n, at_path k t q = Some n -> exists e, putNode n = Ok e).
  { intros q m Hm. apply He. unfold at_path in Hm. destruct (nth_error t _) eqn:E; [|discriminate]. subst. now apply nth_error_In in E. }
  destruct (He' _ _ Hn) as (e & E). apply putNode_parent_len in E. destruct E as [L1 L2].
  assert (T : forall b, computeTreeHash cs t (number k (p ++ [b])) (pn_unmergedLeaves n) = Ok (tree_hash cs k t (pn_unmergedLeaves n) (k - length (p ++ [b])) (p ++ [b]))).
  { intros b. eapply computeTreeHash_defined; eauto using snoc_in. }
  refine (proj2 (verifyParentHashAt_iff cs k t p n _ _ _ _ Sh U Hlt (T false) (T true) _ _) V); eapply computeParentHash_defined; eauto; now apply tree_hash_len.
Qed.

Lemma falseOnErr_true r : falseOnErr r = Ok true <-> r = Ok true.
Proof. destruct r; cbn; split; congruence. Qed.

Lemma verifyParentHashesFrom_spec cs k t : shaped k t -> forall ps, (forall p, In p ps -> in_tree k p) ->
  verifyParentHashesFrom cs t (map (number k) ps) = Ok true <->
  forall p n, In p ps -> at_path k t p = Some (NParent n) -> verifyParentHashAt cs t (number k (p ++ [false])) (number k (p ++ [true])) n = Ok true.
Proof.
  intros Sh. pose proof (shaped_full _ _ Sh) as F. pose proof (proj1 F) as Hk. induction ps as [|p ps IH]; intros Hp; cbn [map verifyParentHashesFrom].
  - split; [intros _ p n []|reflexivity].
  - assert (Hp0 : in_tree k p) by (apply Hp; cbn; auto). rewrite (at_path_getN k) by assumption. cbn [rbind].
    assert (IH' := IH (fun q Hq => Hp q (or_intror Hq))). clear IH.
    assert (G : at_path k t p = None \/ length p = k -> (verifyParentHashesFrom cs t (map (number k) ps) = Ok true <->
       forall q n, In q (p :: ps) -> at_path k t q = Some (NParent n) -> verifyParentHashAt cs t (number k (q ++ [false])) (number k (q ++ [true])) n = Ok true)).
    { intros Hb. rewrite IH'. split; intros H q n Hq Hn; [destruct Hq as [<-|Hq]; [|eauto]|apply H; cbn; auto].
      destruct Hb as [Hb|Hb]; [congruence|]. apply (proj2 Sh) in Hn; [|assumption]. cbn in Hn. lia. }
    destruct (at_path k t p) as [n|] eqn:E; [|apply G; auto].
    destruct (Nat.eq_dec (length p) k) as [El|El].
    + rewrite (proj1 (path_leaf k Hk p El)). apply G. auto.
    + rewrite (path_children k Hk) by (unfold in_tree in Hp0; lia). destruct n as [l|n].
      * apply (proj2 Sh) in E; [|assumption]. cbn in E. contradiction.
      * split.
        -- intros H. apply rbind_ok in H. destruct H as ([|] & H1 & H2); [|discriminate]. apply (proj1 (falseOnErr_true _)) in H1.
           intros q m [<-|Hq] Hm; [rewrite E in Hm; injection Hm as <-; assumption|]. revert q m Hq Hm. now apply IH'.
        -- intros H. rewrite (proj2 (falseOnErr_true _)) by (apply H; cbn; auto). cbn [rbind]. apply IH'. intros q m Hq. apply H. now right.
Qed.

Definition allPaths (k : nat) (t : ratchetTree) : Prop := exists ps, upto (lenN t) = map (number k) ps /\ forall p, In p ps <-> in_tree k p.
Lemma allPaths_ok k t : full k t -> allPaths k t.
Proof.
  intros [Hk Ht]. assert (G : forall l, (forall x, In x l -> x < node_count k) -> exists ps, l = map (number k) ps /\ forall p, In p ps -> in_tree k p).
  { induction l as [|x l IH]; intros Hl; [exists []; split; [reflexivity|intros p []]|].
    destruct IH as (ps & -> & Hps); [intros; apply Hl; cbn; auto|]. destruct (number_onto k x) as (p & Hp & <-); [apply Hl; cbn; auto|].
    exists (p :: ps). split; [reflexivity|]. intros q [<-|Hq]; auto. }
  destruct (G (upto (lenN t))) as (ps & E & H); [intros x Hx; apply upto_In in Hx; lia|]. exists ps. split; [assumption|].
  intros p. split; [apply H|]. intros Hp. assert (Hx : In (number k p) (upto (lenN t))) by (apply upto_In; pose proof (number_lt k p Hp); lia).
  rewrite E in Hx. apply in_map_iff in Hx. destruct Hx as (q & Eq & Hq). apply number_inj in Eq; auto. now subst.
Qed.

Lemma verifyParentHashes_spec cs k t : shaped k t ->
  verifyParentHashes cs t = Ok true <->
  forall p n, in_tree k p -> at_path k t p = Some (NParent n) -> verifyParentHashAt cs t (number k (p ++ [false])) (number k (p ++ [true])) n = Ok true.
Proof.
  intros Sh. unfold verifyParentHashes. destruct (allPaths_ok k t (shaped_full _ _ Sh)) as (ps & -> & Hps).
  rewrite (verifyParentHashesFrom_spec cs k); auto; [|intros; now apply Hps]. split; intros H p n Hp; apply H; now apply Hps.
Qed.

Lemma verifyParentHashes_sound cs k t : shaped k t -> unmerged_in_range k t -> verifyParentHashes cs t = Ok true -> parent_hashes_valid cs k t.
Proof.
  intros Sh U H p n Hp Hn. pose proof (proj1 (verifyParentHashes_spec cs k t Sh) H p n Hp Hn) as H'. apply verifyParentHashAt_sound; auto.
  pose proof (proj2 Sh p _ Hp Hn) as HL. cbn in HL. unfold in_tree in Hp. lia.
Qed.
Lemma verifyParentHashes_complete cs d k t : shaped k t -> unmerged_in_range k t -> crypto_ok C -> encodable t -> cipherSuiteDescriptions cs = Some d ->
  parent_hashes_valid cs k t -> verifyParentHashes cs t = Ok true.
Proof.
  intros Sh U OK He Hd V. apply (proj2 (verifyParentHashes_spec cs k t Sh)). intros p n Hp Hn. eapply verifyParentHashAt_complete; eauto.
  pose proof (proj2 Sh p _ Hp Hn) as HL. cbn in HL. unfold in_tree in Hp. lia.
Qed.

(** ** All checks *)

Definition leaves_ok (t : ratchetTree) (ctx : groupContext) (creds : list N) (now : gotime) : Prop :=
  forall li l, leaf_at t li = Some l -> leaf_checked ctx now li l /\ In (cred_type (ln_credential l)) creds.

Lemma leaves_forall k t ctx creds now : full k t -> Forall (leaf_ok ctx creds now) (allLeaves t) <-> leaves_ok t ctx creds now.
Proof.
  intros F. rewrite Forall_forall. unfold leaves_ok, leaf_ok, leaf_checked. split.
  - intros H li l Hl. apply (allLeaves_In k) in Hl; [|assumption]. specialize (H _ Hl). cbn [fst snd] in H. tauto.
  - intros H [li l] Hl. apply (allLeaves_In k) in Hl; [|assumption]. specialize (H _ _ Hl). cbn [fst snd]. tauto.
Qed.

Lemma unmerged_below_range k t : unmerged_below k t -> unmerged_in_range k t.
Proof. intros H p pn u Hp Hn Hu. destruct (H p pn u Hp Hn Hu). assumption. Qed.

Lemma computeRootTreeHash_at k cs t : full k t -> computeRootTreeHash cs t = computeTreeHash cs t (number k []) [].
Proof. intros F. unfold computeRootTreeHash. now rewrite (numLeaves_tree t k (proj1 F) (proj2 F)), (path_root k (proj1 F)). Qed.

Lemma hashSum_suite cs m h : hashSum cs m = Ok h -> exists d, cipherSuiteDescriptions cs = Some d.
Proof. unfold hashSum, describe. destruct (cipherSuiteDescriptions cs) as [d|]; [eauto|discriminate]. Qed.
Lemma treeHash_suite fuel cs t ex x h : treeHashLoop fuel cs t ex x = Ok h -> exists d, cipherSuiteDescriptions cs = Some d.
Proof.
  destruct fuel as [|fuel]; cbn [treeHashLoop]; intros H; apply rbind_ok in H; destruct H as (n & _ & H); destruct (leafIndexOf x) as [li|].
  - apply rbind_ok in H. destruct H as (l & _ & H). apply rbind_ok in H. destruct H as (i & _ & H). eapply hashSum_suite; eauto.
  - destruct (children x) as [[a b]|]; discriminate.
  - apply rbind_ok in H. destruct H as (l & _ & H). apply rbind_ok in H. destruct H as (i & _ & H). eapply hashSum_suite; eauto.
  - destruct (children x) as [[a b]|]; [|discriminate]. apply rbind_ok in H. destruct H as (hl & _ & H). apply rbind_ok in H. destruct H as (hr & _ & H).
    apply rbind_ok in H. destruct H as (p & _ & H). apply rbind_ok in H. destruct H as (i & _ & H). eapply hashSum_suite; eauto.
Qed.

Lemma verifyIntegrity_parts t ctx now : verifyIntegrity t ctx now = Ok tt <->
  computeRootTreeHash (gc_cipherSuite ctx) t = Ok (gc_treeHash ctx) /\ verifyParentHashes (gc_cipherSuite ctx) t = Ok true /\
  exists creds keys, supportedCreds t = Ok creds /\ verifyLeaves t ctx creds now (upto (numLeaves t)) [] [] = Ok keys /\
    verifyParents t (upto (lenN t)) (snd keys) = Ok tt.
Proof.
  unfold verifyIntegrity. split.
  - intros H. apply rbind_ok in H. destruct H as (h & Hh & H). apply rbind_guard in H. destruct H as [Eh H]. apply bytes_eqb_true in Eh. subst h.
    apply rbind_ok in H. destruct H as (ph & Hph & H). apply rbind_guard in H. destruct H as [-> H].
    apply rbind_ok in H. destruct H as (creds & Hc & H). apply rbind_ok in H. destruct H as (keys & Hk & H). splits; auto. exists creds, keys. auto.
  - intros (H1 & H2 & creds & keys & H3 & H4 & H5). rewrite H1. cbn [rbind]. apply rbind_guard. split; [now apply bytes_eqb_true|].
    rewrite H2. cbn [rbind]. apply rbind_guard. split; [reflexivity|]. rewrite H3. cbn [rbind]. rewrite H4. exact H5.
Qed.

Lemma rootTreeHash_sound k cs t h : shaped k t -> computeRootTreeHash cs t = Ok h ->
  (exists d, cipherSuiteDescriptions cs = Some d) /\ h = tree_hash cs k t [] k [].
Proof.
  intros Sh Hh. pose proof (shaped_full _ _ Sh) as F. rewrite (computeRootTreeHash_at k) in Hh by assumption. split.
  - rewrite tree_hash_eq in Hh. eapply treeHash_suite; eauto.
  - apply (computeTreeHash_value k) in Hh; [|assumption|unfold in_tree; cbn; lia].
    cbn [length] in Hh. now rewrite Nat.sub_0_r in Hh.
Qed.
Lemma rootTreeHash_complete k cs t d : shaped k t -> crypto_ok C -> encodable t -> cipherSuiteDescriptions cs = Some d ->
  computeRootTreeHash cs t = Ok (tree_hash cs k t [] k []).
Proof.
  intros Sh OK He Hd. pose proof (shaped_full _ _ Sh) as F. rewrite (computeRootTreeHash_at k) by assumption.
  erewrite computeTreeHash_defined; eauto; [|unfold in_tree; cbn; lia|].
  - cbn [length]. now rewrite Nat.sub_0_r.
  - intros q n _ _ Hm. apply He. unfold at_path in Hm. destruct (nth_error t _) eqn:E; [|discriminate]. subst. now apply nth_error_In in E.
Qed.

Lemma nodes_spec k t ctx creds now : shaped k t -> wf_lifetimes t -> later_than_1970 now ->
  (exists keys, verifyLeaves t ctx creds now (upto (numLeaves t)) [] [] = Ok keys /\ verifyParents t (upto (lenN t)) (snd keys) = Ok tt) <->
  leaves_ok t ctx creds now /\ distinct_signature_keys t /\ distinct_encryption_keys k t /\ unmerged_below k t.
Proof.
  intros Sh Hw Hnow. pose proof (shaped_full _ _ Sh) as F.
  assert (Hup : forall li, In li (upto (numLeaves t)) -> li < leaf_count k) by (intros li; rewrite (numLeaves_tree t k (proj1 F) (proj2 F)); apply upto_In).
  pose proof (fun keys => verifyLeaves_spec k t ctx creds now Sh Hnow Hw _ [] [] keys Hup (NoDup_nil _) (NoDup_nil _)) as V.
  fold (allLeaves t) in V. rewrite !app_nil_r in V.
  pose proof (fun ek => verifyParents_spec k t Sh (upto (lenN t)) ek (fun x => proj1 (upto_In _ x))) as P. fold (allParents t) in P.
  rewrite <- (leaves_forall k), <- (sigKeys_distinct k), <- (encKeys_distinct k), <- (parents_ok k) by assumption. split.
  - intros (keys & H1 & H2). apply V in H1. destruct H1 as (-> & H3 & H4 & H5). cbn [snd] in H2. apply P in H2; [|assumption]. tauto.
  - intros (H1 & H2 & H3 & H4). assert (H5 : NoDup (encKeysOf (allLeaves t))) by now apply NoDup_app_right in H3.
    eexists. split; [apply V; splits; auto|]. cbn [snd]. now apply P.
Qed.

Lemma verifyIntegrity_sound_gen k t ctx now : shaped k t -> wf_lifetimes t -> later_than_1970 now -> verifyIntegrity t ctx now = Ok tt ->
  integrity_but_credentials k t ctx now /\ exists creds, supportedCreds t = Ok creds /\ leaves_ok t ctx creds now.
Proof.
  intros Sh Hw Hnow H. apply (proj1 (verifyIntegrity_parts t ctx now)) in H. destruct H as (H1 & H2 & creds & keys & H3 & H4).
  destruct (proj1 (nodes_spec k t ctx creds now Sh Hw Hnow) (ex_intro _ keys H4)) as (G1 & G2 & G3 & G4).
  destruct (rootTreeHash_sound k _ _ _ Sh H1) as [R1 R2]. split; [|exists creds; auto]. unfold integrity_but_credentials. splits; auto.
  - apply verifyParentHashes_sound; auto. now apply unmerged_below_range.
  - intros li l Hl. exact (proj1 (G1 li l Hl)).
Qed.

Lemma members_supported k t creds : shaped k t -> lists_once t -> supportedCreds t = Ok creds ->
  forall li l ct, leaf_at t li = Some l -> In ct creds <-> listed_by_all t ct.
Proof.
  intros Sh H1 E li l ct Hl. destruct (supportedCreds_spec k t Sh) as (creds' & E' & H); auto; [now exists li, l|]. rewrite E in E'. apply Ok_inj in E'. subst. apply H.
Qed.
Lemma supportedCreds_defined k t : shaped k t -> exists creds, supportedCreds t = Ok creds.
Proof. intros Sh. unfold supportedCreds. rewrite (members_ok k) by assumption. cbn [rbind]. eauto. Qed.

Theorem verifyIntegrity_most k t ctx now : shaped k t -> wf_lifetimes t -> later_than_1970 now -> verifyIntegrity t ctx now = Ok tt ->
  integrity_but_credentials k t ctx now.
Proof. intros Sh Hw Hn H. now apply (verifyIntegrity_sound_gen k) in H. Qed.

Theorem verifyIntegrity_sound k t ctx now : shaped k t -> wf_lifetimes t -> later_than_1970 now -> lists_once t -> verifyIntegrity t ctx now = Ok tt ->
  integrity k t ctx now.
Proof.
  intros Sh Hw Hn Ho H. apply (verifyIntegrity_sound_gen k) in H; auto. destruct H as (H & creds & Hc & Hl). split; [assumption|].
  intros li l El. apply (members_supported k t creds Sh Ho Hc li l _ El). now destruct (Hl li l El).
Qed.

Theorem verifyIntegrity_complete k t ctx now : shaped k t -> wf_lifetimes t -> later_than_1970 now -> lists_once t -> crypto_ok C -> encodable t ->
  integrity k t ctx now -> verifyIntegrity t ctx now = Ok tt.
Proof.
  intros Sh Hw Hn Ho OK He [((d & Hd) & Hh & Hp & Hl & Hs & Hk & Hu) Hcr]. apply (proj2 (verifyIntegrity_parts t ctx now)).
  destruct (supportedCreds_defined k t Sh) as (creds & Hc).
  assert (L : leaves_ok t ctx creds now).
  { intros li l El. split; [eauto|]. apply (members_supported k t creds Sh Ho Hc li l _ El). eauto. }
  destruct (proj2 (nodes_spec k t ctx creds now Sh Hw Hn) (conj L (conj Hs (conj Hk Hu)))) as (keys & K1 & K2).
  splits.
  - rewrite Hh. eapply rootTreeHash_complete; eauto.
  - eapply verifyParentHashes_complete; eauto. now apply unmerged_below_range.
  - exists creds, keys. auto.
Qed.

(** A tree hash exists only for trees with the right kinds of nodes. *)
Lemma treeHashLoop_placed k cs t : full k t -> forall d p fuel h, in_tree k p -> (k - length p)%nat = d -> (d <= fuel)%nat ->
  treeHashLoop fuel cs t [] (number k p) = Ok h ->
  forall q n, in_tree k q -> ancestor_or_self p q -> at_path k t q = Some n -> placed k q n.
Proof.
  intros F. pose proof (proj1 F) as Hk. induction d as [|d IH]; intros p fuel h Hp Hd Hf H q n Hq Ha Hn.
  - assert (El : length p = k) by (unfold in_tree in *; lia). apply aos_same in Ha; [|apply aos_length in Ha; unfold in_tree in Hq; lia]. subst q.
    destruct (path_leaf k Hk p El) as [_ Hleaf].
    destruct fuel; cbn [treeHashLoop] in H; rewrite (at_path_getN k) in H by assumption; cbn [rbind] in H;
      unfold leafIndexOf in H; rewrite Hn in H; destruct (isLeaf (number k p)) eqn:E; try (now rewrite (path_isLeaf k p Hp) in E; apply Nat.eqb_neq in E);
      destruct n; cbn in *; auto; discriminate.
  - assert (Hlt : (length p < k)%nat) by lia. destruct fuel as [|fuel]; [lia|]. cbn [treeHashLoop] in H.
    rewrite (at_path_getN k) in H by assumption. cbn [rbind] in H. unfold leafIndexOf in H. rewrite (path_isLeaf k p Hp) in H.
    rewrite (proj2 (Nat.eqb_neq (length p) k)) in H by lia. rewrite (path_children k Hk) in H by assumption.
    apply rbind_ok in H. destruct H as (hl & H1 & H). apply rbind_ok in H. destruct H as (hr & H2 & H).
    apply rbind_ok in H. destruct H as (o & H3 & _). apply aos_child in Ha. destruct Ha as [->|(b & Ha)].
    + rewrite Hn in H3. destruct n; [discriminate|]. cbn. lia.
    + destruct b.
      * eapply (IH (p ++ [true]) fuel hr); auto; [now apply snoc_in|rewrite app_length; cbn; lia|lia].
      * eapply (IH (p ++ [false]) fuel hl); auto; [now apply snoc_in|rewrite app_length; cbn; lia|lia].
Qed.
Lemma verifyIntegrity_shaped k t ctx now : full k t -> verifyIntegrity t ctx now = Ok tt -> shaped k t.
Proof.
  intros F H. apply (proj1 (verifyIntegrity_parts t ctx now)) in H. destruct H as (H1 & _). rewrite (rootTreeHash_eq _ k) in H1 by assumption.
  split; [assumption|]. intros p n Hp Hn. destruct F as [Hk Ht]. unfold fits in Hk.
  refine (treeHashLoop_placed k _ t (conj Hk Ht) k [] 32 _ _ _ _ H1 p n Hp _ Hn).
  - unfold in_tree. cbn. lia.
  - cbn. lia.
  - lia.
  - now exists p.
Qed.
Theorem verifyIntegrity_full_sound k t ctx now : full k t -> wf_lifetimes t -> later_than_1970 now -> lists_once t ->
  verifyIntegrity t ctx now = Ok tt -> shaped k t /\ integrity k t ctx now.
Proof. intros F Hw Hn Ho H. pose proof (verifyIntegrity_shaped k t ctx now F H) as Sh. split; [assumption|]. now apply verifyIntegrity_sound. Qed.
Theorem verifyIntegrity_full_most k t ctx now : full k t -> wf_lifetimes t -> later_than_1970 now ->
  verifyIntegrity t ctx now = Ok tt -> shaped k t /\ integrity_but_credentials k t ctx now.
Proof. intros F Hw Hn H. pose proof (verifyIntegrity_shaped k t ctx now F H) as Sh. split; [assumption|]. now apply verifyIntegrity_most. Qed.
End WithCrypto2.
