(** Facts about the keys and signatures of leaves after a commit. *)
From Coq Require Import Lia.
From Verif Require Export SpecKeys ObtainedFacts TreeStepFacts GroupFacts IntegrityFacts HistoryFacts TreeOpFacts MergeFacts.

(** ** Members whose keys differ *)
Section Members.
Variable f : leafNode -> bytes.
Definition distinct_by (M : membership) : Prop := forall i j a b, M i = Some a -> M j = Some b -> f a = f b -> i = j.

Lemma distinct_set M M' s n : distinct_by M -> (forall j l, M j = Some l -> f l = f n -> j = s) ->
  M' s = Some n -> (forall j, j <> s -> M' j = M j) -> distinct_by M'.
Proof.
  intros D Hn Es Eo i j a b Ha Hb E. destruct (N.eq_dec i s) as [->|Hi]; destruct (N.eq_dec j s) as [->|Hj]; auto.
  - rewrite Es in Ha. injection Ha as <-. rewrite Eo in Hb by assumption. symmetry. eapply Hn; eauto.
  - rewrite Es in Hb. injection Hb as <-. rewrite Eo in Ha by assumption. eapply Hn; eauto.
  - rewrite Eo in Ha, Hb by assumption. eapply D; eauto.
Qed.
Lemma distinct_ext M M' : (forall j, M' j = M j) -> distinct_by M -> distinct_by M'.
Proof. intros E D i j a b. rewrite !E. apply D. Qed.
Lemma distinct_fewer M M' : (forall j l, M' j = Some l -> M j = Some l) -> distinct_by M -> distinct_by M'.
Proof. intros E D i j a b Ha Hb. apply D; auto. Qed.

(** Every leaf is an old one or one of a list *)
Lemma updates_distinct l : forall t t', well_shaped t -> foldM updPair t l = Ok t' -> distinct_by (leaf_at t) ->
  NoDup (map f (map snd (updatesOf l))) ->
  (forall s n j m, In (s, n) (updatesOf l) -> leaf_at t j = Some m -> f m = f n -> j = s) ->
  well_shaped t' /\ distinct_by (leaf_at t').
Proof.
  induction l as [|[p s] l IH]; intros t t' W H D HN HF; cbn [foldM] in H.
  - apply Ok_inj in H. now subst.
  - apply rbind_ok in H. destruct H as (t1 & H1 & H2). unfold updPair in H1. cbn [fst snd] in H1.
    destruct p as [kp|n|rm|id|ri|ko|exts]; try (apply Ok_inj in H1; subst; now apply (IH t1)).
    destruct (update_members _ _ _ _ W H1) as (W1 & H3 & H4).
    change (updatesOf ((PUpdate n, s) :: l)) with ((designated s, n) :: updatesOf l) in *. cbn [map snd] in HN. inversion HN as [|? ? Hin HN']; subst.
    apply (IH t1); auto.
    + apply (distinct_set (leaf_at t) (leaf_at t1) (designated s) n); auto. intros j m Hm E. eapply HF; eauto. now left.
    + intros s' n' j m Hi Hm E. destruct (N.eq_dec j (designated s)) as [->|Hj].
      * rewrite H3 in Hm. injection Hm as <-. exfalso. apply Hin. rewrite E. apply in_map. change n' with (snd (s', n')). now apply in_map.
      * rewrite H4 in Hm by assumption. eapply HF; eauto. now right.
Qed.
Lemma updates_from l : forall t t', well_shaped t -> foldM updPair t l = Ok t' ->
  forall j m, leaf_at t' j = Some m -> leaf_at t j = Some m \/ In (j, m) (updatesOf l).
Proof.
  induction l as [|[p s] l IH]; intros t t' W H j m Hm; cbn [foldM] in H.
  - apply Ok_inj in H. subst. auto.
  - apply rbind_ok in H. destruct H as (t1 & H1 & H2). unfold updPair in H1. cbn [fst snd] in H1.
    destruct p as [kp|n|rm|id|ri|ko|exts]; try (apply Ok_inj in H1; subst; now apply (IH t1 t')).
    destruct (update_members _ _ _ _ W H1) as (W1 & H3 & H4). destruct (IH t1 t' W1 H2 j m Hm) as [H5|H5].
    + destruct (N.eq_dec j (designated s)) as [->|Hj].
      * rewrite H3 in H5. injection H5 as <-. right. left. reflexivity.
      * rewrite H4 in H5 by assumption. auto.
    + right. right. exact H5.
Qed.
Lemma fills_distinct M ls M' : fills M ls M' -> distinct_by M -> NoDup (map f ls) ->
  (forall n j l, In n ls -> M j = Some l -> f l <> f n) -> distinct_by M'.
Proof.
  induction 1 as [M M' E|M l r i M1 M' E1 E2 E3 E4 H IH]; intros D HN HF.
  - eapply distinct_ext; eauto.
  - cbn [map] in HN. inversion HN as [|? ? Hin HN']; subst. apply IH; auto.
    + apply (distinct_set M M1 i l); auto. intros j m Hm E. exfalso. eapply (HF l j m); eauto. now left.
    + intros n j m Hn Hm E. destruct (N.eq_dec j i) as [->|Hj].
      * rewrite E3 in Hm. injection Hm as <-. apply Hin. rewrite E. now apply in_map.
      * rewrite E4 in Hm by assumption. eapply (HF n j m); eauto. now right.
Qed.
Lemma fills_from M ls M' : fills M ls M' -> forall j l, M' j = Some l -> M j = Some l \/ In l ls.
Proof.
  induction 1 as [M M' E|M l r i M1 M' E1 E2 E3 E4 H IH]; intros j m Hm.
  - rewrite E in Hm. auto.
  - destruct (IH j m Hm) as [H5|H5]; [|right; now right]. destruct (N.eq_dec j i) as [->|Hj].
    + rewrite E3 in H5. injection H5 as <-. right. now left.
    + rewrite E4 in H5 by assumption. auto.
Qed.

Lemma vapply_parts t l t' : well_shaped t -> vapply t (map fst l) (map snd l) = Ok t' ->
  exists t1 t2, foldM updPair t l = Ok t1 /\ well_shaped t1 /\ well_shaped t2 /\ foldM remStep t1 (map fst l) = Ok t2 /\
    foldM addStep t2 (map fst l) = Ok t' /\
    (forall j m, leaf_at t2 j = Some m -> leaf_at t1 j = Some m) /\ fills (leaf_at t2) (additionsOf l) (leaf_at t').
Proof.
  intros W H. rewrite vapply_eq, updates_eq in H. apply rbind_ok in H. destruct H as (t1 & H1 & H).
  apply rbind_ok in H. destruct H as (t2 & H2 & H3). destruct (updates_members _ _ _ W H1) as [W1 U].
  destruct (removes_members _ _ _ W1 H2) as [W2 R]. pose proof (adds_members _ _ _ W2 H3) as A. rewrite flat_map_map in A.
  exists t1, t2. splits; auto. intros j m. rewrite R. destruct (memN _ _); [discriminate|auto].
Qed.

Lemma vapply_distinct t l t' : well_shaped t -> vapply t (map fst l) (map snd l) = Ok t' -> distinct_by (leaf_at t) ->
  fresh_keys f (leaf_at t) l -> distinct_by (leaf_at t').
Proof.
  intros W H D (HN & HU & HA). destruct (vapply_parts t l t' W H) as (t1 & t2 & E1 & W1 & W2 & E2 & E3 & R & F).
  unfold newLeaves in HN. rewrite map_app in HN. destruct (NoDup_app_inv _ _ HN) as (N1 & N2 & N3).
  destruct (updates_distinct l t t1 W E1 D N1) as [_ D1]; [intros; eapply HU; eauto|].
  apply (fills_distinct _ _ _ F); auto.
  - eapply distinct_fewer; eauto.
  - intros n j m Hn Hm E. apply R in Hm. destruct (updates_from l t t1 W E1 j m Hm) as [Ho|Ho].
    + eapply HA; eauto.
    + apply (N3 (f n)); [|now apply in_map]. rewrite <- E. apply in_map. change m with (snd (j, m)). now apply in_map.
Qed.
End Members.

Lemma vapply_from t l t' : well_shaped t -> vapply t (map fst l) (map snd l) = Ok t' ->
  forall j m, leaf_at t' j = Some m -> leaf_at t j = Some m \/ In (j, m) (updatesOf l) \/ In m (additionsOf l).
Proof.
  intros W H j m Hm. destruct (vapply_parts t l t' W H) as (t1 & t2 & E1 & W1 & W2 & E2 & E3 & R & F).
  destruct (fills_from _ _ _ F j m Hm) as [Ho|Ho]; [|auto]. apply R in Ho. destruct (updates_from l t t1 W E1 j m Ho); auto.
Qed.

(** ** Parent nodes keep their keys *)
Definition parents_from (t t' : ratchetTree) : Prop :=
  forall i pn', nth_error t' i = Some (Some (NParent pn')) ->
    exists pn, nth_error t i = Some (Some (NParent pn)) /\ pn_encryptionKey pn = pn_encryptionKey pn'.
Lemma parents_from_refl t : parents_from t t.
Proof. intros i pn H. eauto. Qed.
Lemma parents_from_trans a b c : parents_from a b -> parents_from b c -> parents_from a c.
Proof. intros H1 H2 i pn H. destruct (H2 i pn H) as (pn1 & E1 & K1). destruct (H1 i pn1 E1) as (pn2 & E2 & K2). exists pn2. split; auto. congruence. Qed.
Lemma parents_from_paths k t t' : full k t -> full k t' ->
  (forall p pn', in_tree k p -> at_path k t' p = Some (NParent pn') -> exists pn, at_path k t p = Some (NParent pn) /\ pn_encryptionKey pn = pn_encryptionKey pn') ->
  parents_from t t'.
Proof.
  intros F F' H i pn' Hi. assert (Hlt : N.of_nat i < node_count k).
  { rewrite <- (proj2 F'). unfold lenN. assert (i < length t')%nat by (apply nth_error_Some; congruence). lia. }
  destruct (number_onto k (N.of_nat i) Hlt) as (p & Hp & Hn). destruct (H p pn' Hp) as (pn & E & K).
  - unfold at_path. rewrite Hn, Nnat.Nat2N.id, Hi. reflexivity.
  - exists pn. split; auto. unfold at_path in E. rewrite Hn, Nnat.Nat2N.id in E. destruct (nth_error t i); congruence.
Qed.
Lemma parents_from_replaced k t t' li o : shaped k t -> replaced k t t' li o -> (forall n, o = Some n -> exists l, n = NLeaf l) -> parents_from t t'.
Proof.
  intros [F S] (F' & Hli & H1 & H2 & H3) Ho. apply (parents_from_paths k); auto. intros p pn Hp H.
  destruct (path_eq_dec p (leafPath k li)) as [->|Hne].
  - rewrite H1 in H. destruct (Ho _ H) as (l & E). discriminate.
  - destruct (above_dec p (leafPath k li)) as [Ha|Ha].
    + rewrite H2 in H by assumption. discriminate.
    + rewrite H3 in H by assumption. eauto.
Qed.
Lemma parents_from_firstn n t : parents_from t (firstn n t).
Proof.
  intros i pn H. exists pn. split; auto. destruct (Nat.lt_ge_cases i n) as [Hi|Hi].
  - revert i n H Hi. induction t as [|a t IH]; intros [|i] [|n] H Hi; cbn in *; try discriminate; try lia; auto. apply (IH i n); auto. lia.
  - exfalso. assert (nth_error (firstn n t) i <> None) by congruence. apply nth_error_Some in H0. rewrite firstn_length in H0. lia.
Qed.
Lemma parents_from_grown t : parents_from t (grown t).
Proof.
  intros i pn H. exists pn. split; auto. unfold grown in H. destruct (Nat.lt_ge_cases i (length t)) as [Hi|Hi].
  - now rewrite nth_error_app1 in H.
  - rewrite nth_error_app2 in H by assumption. apply nth_error_In, repeat_spec in H. discriminate.
Qed.
Lemma parents_from_truncated k t t' : truncated k t t' -> parents_from t t'.
Proof. intros [[-> _]|(k' & _ & _ & -> & _)]; [|apply parents_from_firstn]. intros i pn H. destruct i; discriminate. Qed.
Lemma parents_from_added k t t' li l : shaped k t -> added k t t' li l -> parents_from t t'.
Proof.
  intros [F S] ([F' _] & Hli & H1 & H2 & H3). apply (parents_from_paths k); auto. intros p pn Hp H.
  destruct (path_eq_dec p (leafPath k li)) as [->|Hne]; [congruence|].
  destruct (above_dec p (leafPath k li)) as [Ha|Ha].
  - rewrite H2 in H by assumption. destruct (at_path k t p) as [[?|q]|]; try discriminate. cbn in H. injection H as <-. eauto.
  - rewrite H3 in H by assumption. eauto.
Qed.
Lemma vapply_parents t l t' : well_shaped t -> vapply t (map fst l) (map snd l) = Ok t' -> parents_from t t'.
Proof.
  intros W H. destruct (vapply_parts t l t' W H) as (t1 & t2 & E1 & W1 & W2 & E2 & E3 & _).
  assert (X : forall ls t t1, foldM updPair t ls = Ok t1 -> well_shaped t -> parents_from t t1).
  { clear. induction ls as [|[p s] ls IH]; intros t t1 E W; cbn [foldM] in E.
    - apply Ok_inj in E. subst. apply parents_from_refl.
    - apply rbind_ok in E. destruct E as (t2 & H1 & H2). unfold updPair in H1. cbn [fst snd] in H1.
      destruct p as [kp|n|rm|id|ri|ko|exts]; try (apply Ok_inj in H1; subst; now apply (IH t2)).
      destruct (update_shape _ _ _ _ W H1) as (k & S & R & S'). apply (parents_from_trans t t2 t1).
      + eapply parents_from_replaced; eauto. intros m E. injection E as <-. eauto.
      + apply IH; auto. right. eauto. }
  assert (Y : forall ps t t1, foldM remStep t ps = Ok t1 -> well_shaped t -> parents_from t t1).
  { clear. induction ps as [|p ps IH]; intros t t1 E W; cbn [foldM] in E.
    - apply Ok_inj in E. subst. apply parents_from_refl.
    - apply rbind_ok in E. destruct E as (t2 & H1 & H2). unfold remStep in H1.
      destruct p as [kp|n|rm|id|ri|ko|exts]; try (apply Ok_inj in H1; subst; now apply (IH t2)).
      destruct (remove_shape _ _ _ W H1) as (k & t3 & S & R & S' & T & W2). apply (parents_from_trans t t2 t1); [apply (parents_from_trans t t3 t2)|].
      + eapply parents_from_replaced; eauto. discriminate.
      + eapply parents_from_truncated; eauto.
      + now apply IH. }
  assert (Z : forall ps t t1, foldM addStep t ps = Ok t1 -> well_shaped t -> parents_from t t1).
  { clear. induction ps as [|p ps IH]; intros t t1 E W; cbn [foldM] in E.
    - apply Ok_inj in E. subst. apply parents_from_refl.
    - apply rbind_ok in E. destruct E as (t2 & H1 & H2). unfold addStep in H1.
      destruct p as [kp|n|rm|id|ri|ko|exts]; try (apply Ok_inj in H1; subst; now apply (IH t2)).
      destruct (add_shape _ _ _ W H1) as (k & t0 & li & HL & HT & HS & HA). apply (parents_from_trans t t2 t1).
      + apply (parents_from_trans t t0 t2); [destruct HT as [->|[-> _]]; [apply parents_from_refl|apply parents_from_grown]|]. eapply parents_from_added; eauto.
      + apply IH; auto. right. exists k. apply HA. }
  eapply parents_from_trans; [apply (X _ _ _ E1 W)|]. eapply parents_from_trans; [apply (Y _ _ _ E2 W1)|]. apply (Z _ _ _ E3 W2).
Qed.

(** ** The nodes of a tree, leaves and parents *)
Lemma index_leaf t i l : well_shaped t -> nth_error t i = Some (Some (NLeaf l)) -> exists li, i = N.to_nat (2 * li) /\ leaf_at t li = Some l.
Proof.
  intros [->|(k & F & S)] H; [destruct i; discriminate|]. assert (Hlt : N.of_nat i < node_count k).
  { rewrite <- (proj2 F). unfold lenN. assert (i < length t)%nat by (apply nth_error_Some; congruence). lia. }
  destruct (number_onto k (N.of_nat i) Hlt) as (p & Hp & Hn).
  assert (Hat : at_path k t p = Some (NLeaf l)) by (unfold at_path; rewrite Hn, Nnat.Nat2N.id, H; reflexivity).
  pose proof (S p _ Hp Hat) as Pl. cbn in Pl. destruct (leafPath_onto k p Pl) as [E Hv]. exists (val p).
  rewrite E, leafPath_number in Hn by assumption. assert (i = N.to_nat (2 * val p)) by lia. split; [assumption|]. unfold leaf_at. rewrite <- H0, H. reflexivity.
Qed.
Lemma leaf_index t li l : leaf_at t li = Some l -> nth_error t (N.to_nat (2 * li)) = Some (Some (NLeaf l)).
Proof. unfold leaf_at. destruct (nth_error t _) as [[[m|p]|]|]; try discriminate. congruence. Qed.

Definition distinct_parents (t : ratchetTree) : Prop :=
  forall i j a b, nth_error t i = Some (Some (NParent a)) -> nth_error t j = Some (Some (NParent b)) -> pn_encryptionKey a = pn_encryptionKey b -> i = j.
Lemma node_keys_split t : well_shaped t -> distinct_node_keys t <->
  distinct_by ln_encryptionKey (leaf_at t) /\ distinct_parents t /\ forall j l, leaf_at t j = Some l -> ~ parent_key t (ln_encryptionKey l).
Proof.
  intros W. split.
  - intros D. splits.
    + intros i j a b Ha Hb E. apply leaf_index in Ha, Hb. pose proof (D _ _ _ _ Ha Hb E). lia.
    + intros i j a b Ha Hb E. exact (D _ _ _ _ Ha Hb E).
    + intros j l Hl (i & pn & Hi & E). apply leaf_index in Hl. assert (i = N.to_nat (2 * j)) by exact (D _ _ _ _ Hi Hl E). subst i. congruence.
  - intros (D1 & D2 & D3) i j n m Hi Hj E. destruct n as [a|a], m as [b|b]; cbn [node_encryptionKey] in E.
    + destruct (index_leaf t i a W Hi) as (li & -> & La). destruct (index_leaf t j b W Hj) as (lj & -> & Lb). now rewrite (D1 _ _ _ _ La Lb E).
    + destruct (index_leaf t i a W Hi) as (li & -> & La). exfalso. apply (D3 li a La). exists j, b. auto.
    + destruct (index_leaf t j b W Hj) as (lj & -> & Lb). exfalso. apply (D3 lj b Lb). exists i, a. auto.
    + eapply D2; eauto.
Qed.
Lemma parents_from_key t t' key : parents_from t t' -> parent_key t' key -> parent_key t key.
Proof. intros H (i & pn & Hi & E). destruct (H i pn Hi) as (pn0 & H0 & K). exists i, pn0. split; auto. congruence. Qed.

Lemma vapply_node_keys t l t' : well_shaped t -> vapply t (map fst l) (map snd l) = Ok t' -> distinct_node_keys t ->
  fresh_keys ln_encryptionKey (leaf_at t) l -> (forall n, In n (newLeaves l) -> ~ parent_key t (ln_encryptionKey n)) -> distinct_node_keys t'.
Proof.
  intros W H D F HP. pose proof (vapply_shape _ _ _ _ W H) as W'. apply (node_keys_split t W) in D. destruct D as (D1 & D2 & D3).
  apply (node_keys_split t' W'). pose proof (vapply_parents t l t' W H) as P. splits.
  - exact (vapply_distinct ln_encryptionKey t l t' W H D1 F).
  - intros i j a b Ha Hb E. destruct (P i a Ha) as (a0 & Ha0 & Ka). destruct (P j b Hb) as (b0 & Hb0 & Kb). eapply D2; eauto. congruence.
  - intros j m Hm Hk. apply (parents_from_key _ _ _ P) in Hk. destruct (vapply_from t l t' W H j m Hm) as [Ho|[Ho|Ho]].
    + eapply D3; eauto.
    + eapply HP; eauto. unfold newLeaves. apply in_or_app. left. change m with (snd (j, m)). now apply in_map.
    + eapply HP; eauto. unfold newLeaves. apply in_or_app. now right.
Qed.

(** ** Update paths *)
Section WithCrypto.
Context {C : crypto}.

Lemma linked_at cs k t : forall l nodes h a, linked cs k t l nodes h -> In a (map fst l) ->
  exists i s u h', nth_error l i = Some (a, s) /\ nth_error nodes i = Some u /\ at_path k t a = Some (NParent (mkParentNode (upn_encryptionKey u) h' [])).
Proof.
  induction l as [|[b s] l IH]; intros nodes h a H Hin; [destruct Hin|]. destruct nodes as [|u nodes]; [destruct H|].
  cbn [linked] in H. destruct H as (h' & H1 & H2 & H3). destruct Hin as [E|Hin].
  - cbn [fst] in E. subst b. exists 0%nat, s, u, h'. auto.
  - destruct (IH nodes h' a H3 Hin) as (i & s' & u' & h'' & E1 & E2 & E3). exists (S i), s', u', h''. auto.
Qed.

(** A node of the new tree is the leaf, a node of the path, or an old node. *)
Lemma merged_node cs k t t' li up p n : shaped k t -> merged cs k t t' li up -> in_tree k p -> at_path k t' p = Some n ->
  (p = leafPath k li /\ n = NLeaf (up_leafNode up)) \/
  (exists i s u, nth_error (filtered k t (leafPath k li)) i = Some (p, s) /\ nth_error (up_nodes up) i = Some u /\ node_encryptionKey n = upn_encryptionKey u /\ exists pn, n = NParent pn) \/
  (p <> leafPath k li /\ at_path k t p = Some n).
Proof.
  intros S (F' & Hli & H1 & H2 & H3 & H4) Hp Hn. destruct (path_eq_dec p (leafPath k li)) as [->|Hne].
  - left. split; auto. congruence.
  - right. destruct (above_dec p (leafPath k li)) as [Ha|Ha].
    + left. destruct (in_dec path_eq_dec p (map fst (filtered k t (leafPath k li)))) as [Hin|Hin].
      * destruct (linked_at _ _ _ _ _ _ _ H2 Hin) as (i & s & u & h' & E1 & E2 & E3). rewrite E3 in Hn. injection Hn as <-. exists i, s, u. splits; eauto.
      * rewrite H3 in Hn by assumption. discriminate.
    + right. split; auto. now rewrite H4 in Hn by assumption.
Qed.

Lemma merged_leaf cs k t t' li up : shaped k t -> shaped k t' -> merged cs k t t' li up ->
  leaf_at t' li = Some (up_leafNode up) /\ forall j, j <> li -> leaf_at t' j = leaf_at t j.
Proof.
  intros S S' (F' & Hli & H1 & H2 & H3 & H4). split; [now rewrite (leaf_at_path k), H1|].
  intros j Hj. destruct (N.lt_ge_cases j (leaf_count k)) as [Hlt|Hge].
  - rewrite !(leaf_at_path k) by assumption. rewrite H4; [reflexivity|apply leafPath_in| |apply leaf_not_above]. intros E. apply leafPath_inj in E; auto.
  - rewrite !(leaf_at_out k) by (auto; now apply shaped_full). reflexivity.
Qed.

Lemma merged_node_keys cs k t t' li up : shaped k t -> merged cs k t t' li up -> distinct_encryption_keys k t ->
  NoDup (pathKeys up) ->
  (forall key p n, In key (pathKeys up) -> in_tree k p -> at_path k t p = Some n -> node_encryptionKey n <> key) ->
  distinct_encryption_keys k t'.
Proof.
  intros S M D HN HF p q n m Hp Hq Hn Hm E.
  assert (K : forall i u, nth_error (up_nodes up) i = Some u -> In (upn_encryptionKey u) (pathKeys up)).
  { intros i u Hu. right. apply in_map. eapply nth_error_In; eauto. }
  assert (L : forall i u, nth_error (up_nodes up) i = Some u -> upn_encryptionKey u <> ln_encryptionKey (up_leafNode up)).
  { intros i u Hu Eu. unfold pathKeys in HN. inversion HN as [|? ? Hx]; subst. apply Hx. rewrite <- Eu. apply in_map. eapply nth_error_In; eauto. }
  destruct (merged_node cs k t t' li up p n S M Hp Hn) as [[-> ->]|[(i & s & u & A1 & A2 & A3 & _)|[A1 A2]]];
    destruct (merged_node cs k t t' li up q m S M Hq Hm) as [[-> ->]|[(j & s' & u' & B1 & B2 & B3 & _)|[B1 B2]]]; auto.
  - exfalso. cbn [node_encryptionKey] in E. rewrite B3 in E. now apply (L j u').
  - exfalso. apply (HF (ln_encryptionKey (up_leafNode up)) q m); auto. now left.
  - exfalso. cbn [node_encryptionKey] in E. rewrite A3 in E. now apply (L i u).
  - assert (i = j).
    { unfold pathKeys in HN. inversion HN as [|? ? _ HN']; subst. rewrite NoDup_nth_error in HN'. apply HN'.
      - rewrite map_length. apply nth_error_Some. congruence.
      - rewrite !nth_error_map, A2, B2. cbn. congruence. }
    subst j. congruence.
  - exfalso. apply (HF (upn_encryptionKey u) q m); auto; [eauto|congruence].
  - exfalso. apply (HF (ln_encryptionKey (up_leafNode up)) p n); auto. now left.
  - exfalso. apply (HF (upn_encryptionKey u') p n); auto; [eauto|congruence].
  - eapply D; eauto.
Qed.

Lemma distinct_node_keys_paths k t : full k t -> distinct_node_keys t <-> distinct_encryption_keys k t.
Proof.
  intros F. split.
  - intros D p q n m Hp Hq Hn Hm E. apply (number_inj k); auto. unfold at_path in Hn, Hm.
    destruct (nth_error t (N.to_nat (number k p))) as [o1|] eqn:E1; [|discriminate]. destruct (nth_error t (N.to_nat (number k q))) as [o2|] eqn:E2; [|discriminate]. subst o1 o2.
    pose proof (D _ _ _ _ E1 E2 E). lia.
  - intros D i j n m Hi Hj E.
    assert (Hlt : forall x y, nth_error t x = Some y -> N.of_nat x < node_count k).
    { intros x y Hx. rewrite <- (proj2 F). unfold lenN. assert (x < length t)%nat by (apply nth_error_Some; congruence). lia. }
    destruct (number_onto k (N.of_nat i) (Hlt _ _ Hi)) as (p & Hp & Hnp). destruct (number_onto k (N.of_nat j) (Hlt _ _ Hj)) as (q & Hq & Hnq).
    assert (p = q); [|subst; lia]. apply (D p q n m); auto; unfold at_path; [rewrite Hnp|rewrite Hnq]; rewrite Nnat.Nat2N.id; [rewrite Hi|rewrite Hj]; reflexivity.
Qed.

Lemma treeKeys_ok k t : shaped k t -> treeKeys t = Ok (map (fun p => ln_signatureKey (snd p)) (allLeaves t), map (fun p => ln_encryptionKey (snd p)) (allLeaves t)).
Proof. intros S. unfold treeKeys. now rewrite (members_ok k t S). Qed.

(** What is checked of an update path *)
Lemma processPath_checks g li path h t priv now h1 t1 th c priv1 k : shaped k (deref h t) ->
  processPath g li path h t priv now = Ok (h1, t1, th, c, priv1) ->
  exists sn, leaf_at (deref h t) (designated li) = Some sn /\
    leaf_signed (gc_cipherSuite (gr_context g)) (gc_groupID (gr_context g)) li (up_leafNode path) /\
    (forall j l, leaf_at (deref h t) j = Some l -> ln_signatureKey l <> ln_signatureKey sn -> ln_signatureKey l <> ln_signatureKey (up_leafNode path)) /\
    (forall key j l, In key (pathKeys path) -> leaf_at (deref h t) j = Some l -> ln_encryptionKey l <> key) /\
    mergeUpdatePathH (gc_cipherSuite (gr_context g)) h t li path = Ok (h1, t1).
Proof.
  intros S H. pose proof (proj1 (processPath_inv _ _ _ _ _ _ _ _ _ _ _ _ H)) as Hm. unfold processPath in H. cbv zeta in H.
  apply rbind_ok in H. destruct H as ([] & _ & H). apply rbind_ok in H. destruct H as (sn & Esn & H).
  apply rbind_ok in H. destruct H as ([sk ek] & Ek & H). rewrite (treeKeys_ok k _ S) in Ek. apply Ok_inj in Ek. apply pair_equal_spec in Ek. destruct Ek as [<- <-].
  destruct sn as [sn|]; [|discriminate].
  apply rbind_ok in H. destruct H as (creds & _ & H). apply rbind_ok in H. destruct H as ([] & Ev & H). apply rbind_ok in H. destruct H as ([] & Eg & _).
  apply guard_iff in Eg. rewrite forallb_forall in Eg.
  assert (Hsn : leaf_at (deref h t) (designated li) = Some sn).
  { apply getLeaf_some in Esn. unfold leaf_at. rewrite nodeIndexOf_designated in Esn. now rewrite Esn. }
  unfold leafNodeVerify in Ev. apply rbind_ok in Ev. destruct Ev as (ok & Es & Ev). apply rbind_guard in Ev. destruct Ev as [-> Ev].
  apply rbind_guard in Ev. destruct Ev as [_ Ev]. apply rbind_guard in Ev. destruct Ev as [_ Ev]. apply rbind_guard in Ev. destruct Ev as [_ Ev].
  apply rbind_guard in Ev. destruct Ev as [Ek1 Ev]. apply guard_iff in Ev. cbn [vo_cipherSuite vo_groupID vo_leafIndex vo_signatureKeys vo_encryptionKeys] in *.
  apply leafNodeVerifySignature_spec in Es. apply memB_negb in Ek1, Ev.
  exists sn. splits; auto.
  - intros j l Hl Hne E. apply Ek1. rewrite <- E. apply filter_In. split.
    + apply in_map_iff. exists (j, l). split; auto. apply (allLeaves_In k); auto. apply S.
    + apply negb_true_iff. now apply bytes_eqb_false.
  - intros key j l [<-|Hk] Hl E.
    + apply Ev. rewrite <- E. apply in_map_iff. exists (j, l). split; auto. apply (allLeaves_In k); auto. apply S.
    + apply in_map_iff in Hk. destruct Hk as (u & <- & Hu). specialize (Eg u Hu). apply memB_negb in Eg. apply Eg. rewrite <- E.
      apply in_map_iff. exists (j, l). split; auto. apply (allLeaves_In k); auto. apply S.
Qed.

(** The tree of a group after a commit *)
Lemma commit_tree g raw now ac c g' li ps : sane g -> accepts_commit g raw now ac c g' -> fc_sender (ac_content ac) = SMember li -> commits g li c ps ->
  exists v, well_shaped v /\ vapply (gr_value g) (map fst ps) (map snd ps) = Ok v /\
    match c_path c with
    | None => gr_value g' = v
    | Some up => exists k sn, shaped k v /\ shaped k (gr_value g') /\ merged (gc_cipherSuite (gr_context g)) k v (gr_value g') (designated li) up /\
        leaf_at v (designated li) = Some sn /\
        leaf_signed (gc_cipherSuite (gr_context g)) (gc_groupID (gr_context g)) li (up_leafNode up) /\
        (forall j l, leaf_at v j = Some l -> ln_signatureKey l <> ln_signatureKey sn -> ln_signatureKey l <> ln_signatureKey (up_leafNode up)) /\
        (forall key j l, In key (pathKeys up) -> leaf_at v j = Some l -> ln_encryptionKey l <> key)
    end.
Proof.
  intros Sa H Hs Hc. pose proof H as (_ & Hb & _). apply accepts_commit_inv in H. destruct H as [_ H]. apply processCommit_ok in H.
  destruct H as (c' & proposals & senders & h & t & Hb' & Hck & Ha & Hf). assert (c' = c) by congruence. subst c'. rewrite Hs in Hck. cbn [sender_leafIndex] in Hck.
  assert (Eps : proposals = map fst ps /\ senders = map snd ps).
  { unfold checkCommit in Hck. apply rbind_ok in Hck. destruct Hck as (ps' & E & Hck). apply (proj2 (resolveProposals_spec _ _ _ _)) in Hc. rewrite Hc in E. apply Ok_inj in E. subst ps'.
    cbv zeta in Hck. apply rbind_ok in Hck. destruct Hck as (? & _ & Hck). apply rbind_ok in Hck. destruct Hck as (? & _ & Hck). apply rbind_ok in Hck. destruct Hck as (? & _ & Hck).
    apply Ok_inj in Hck. apply pair_equal_spec in Hck. destruct Hck. auto. }
  destruct Eps as [-> ->]. destruct (applyH_value _ _ (map fst ps) (map snd ps) (proj1 (sane_consistent _ Sa))) as [V P].
  specialize (P _ _ Ha). rewrite Ha in V. cbn [rmap] in V. symmetry in V. change (value (h, t)) with (deref h t) in V. fold (gr_value g) in V.
  exists (deref h t). pose proof (vapply_shape _ _ _ _ (sane_shape _ Sa) V) as W. change (well_shaped (deref h t)) in W. splits; auto.
  destruct (finishCommit_ok _ _ _ _ _ _ _ _ _ Hf) as (priv & nh & h1 & t1 & th & cs & priv1 & ctx & it & psk & es & ini & _ & _ & Hp & _ & ->).
  unfold gr_value. cbn [gr_heap gr_tree]. destruct (c_path c) as [up|].
  - rewrite Hs in Hp. cbn [sender_leafIndex] in Hp. destruct W as [W|(k & W)].
    + exfalso. apply processPath_inv in Hp. destruct Hp as [Hm _]. unfold mergeUpdatePathH in Hm. apply rbind_ok in Hm. destruct Hm as (v & Hm & _). rewrite W in Hm. now apply merge_nil in Hm.
    + destruct (processPath_checks _ _ _ _ _ _ _ _ _ _ _ _ k W Hp) as (sn & H1 & H2 & H3 & H4 & Hm). exists k, sn.
      destruct (mergeH_sound _ _ _ _ _ _ _ _ P W Hm) as [Pr1 M].
      splits; auto. destruct (history_shape (h, t) (h1, t1)) as [_ Sh2]; auto.
      { eapply steps_more; [eapply step_merge; exact Hm|apply steps_none]. }
      { right. eauto. }
      cbn [fst snd] in Sh2. destruct Sh2 as [E|(k' & Sh2)].
      * exfalso. destruct M as (F' & _). rewrite E in F'. destruct F' as [_ F']. unfold lenN in F'. cbn in F'. pose proof (node_leaf_count k). pose proof (leaf_count_pos k). lia.
      * destruct M as (F' & _). assert (k' = k) by (eapply height_unique; [apply Sh2|exact F']). now subst.
  - destruct Hp as (-> & -> & _). reflexivity.
Qed.

(** ** Theorems *)
Theorem commit_signature_keys g raw now ac c g' li ps : obtained g -> accepts_commit g raw now ac c g' ->
  fc_sender (ac_content ac) = SMember li -> commits g li c ps ->
  distinct_signature_keys (gr_value g) -> fresh_keys ln_signatureKey (leaf_at (gr_value g)) ps -> distinct_signature_keys (gr_value g').
Proof.
  intros O H Hs Hc D F. pose proof (obtained_sane g O) as Sa. destruct (commit_tree _ _ _ _ _ _ _ _ Sa H Hs Hc) as (v & W & V & Hp).
  pose proof (vapply_distinct ln_signatureKey _ _ _ (sane_shape _ Sa) V D F) as D1. destruct (c_path c) as [up|].
  - destruct Hp as (k & sn & S & S' & M & Hsn & _ & Hk & _). destruct (merged_leaf _ _ _ _ _ _ S S' M) as [E1 E2].
    apply (distinct_set ln_signatureKey (leaf_at v) (leaf_at (gr_value g')) (designated li) (up_leafNode up)); auto.
    intros j l Hl E. destruct (bytes_eqb_spec (ln_signatureKey l) (ln_signatureKey sn)) as [E0|E0].
    + eapply D1; eauto.
    + exfalso. eapply Hk; eauto.
  - rewrite Hp. exact D1.
Qed.

Theorem commit_encryption_keys g raw now ac c g' li ps : obtained g -> accepts_commit g raw now ac c g' ->
  fc_sender (ac_content ac) = SMember li -> commits g li c ps ->
  distinct_node_keys (gr_value g) -> fresh_encryption_keys (gr_value g) ps (c_path c) -> distinct_node_keys (gr_value g').
Proof.
  intros O H Hs Hc D (F1 & F2 & F3). pose proof (obtained_sane g O) as Sa. destruct (commit_tree _ _ _ _ _ _ _ _ Sa H Hs Hc) as (v & W & V & Hp).
  pose proof (vapply_node_keys _ _ _ (sane_shape _ Sa) V D F1 F2) as D1. pose proof (vapply_parents _ _ _ (sane_shape _ Sa) V) as P. destruct (c_path c) as [up|].
  - destruct Hp as (k & sn & S & S' & M & _ & _ & _ & Hk). destruct (F3 up eq_refl) as [N1 N2].
    apply (distinct_node_keys_paths k); [apply S'|]. apply (merged_node_keys _ _ _ _ _ _ S M); auto.
    + apply (distinct_node_keys_paths k); [apply S|assumption].
    + intros key p n Hin Hp Hn E. destruct n as [l|pn]; cbn [node_encryptionKey] in E.
      * pose proof (proj2 S p _ Hp Hn) as Pl. cbn in Pl. destruct (leafPath_onto k p Pl) as [Ep Hv]. apply (Hk key (val p) l); auto.
        rewrite (leaf_at_path k) by assumption. rewrite <- Ep, Hn. reflexivity.
      * apply (N2 key Hin). apply (parents_from_key _ _ _ P). unfold at_path in Hn. destruct (nth_error v (N.to_nat (number k p))) as [o|] eqn:En; [|discriminate]. subst o.
        exists (N.to_nat (number k p)), pn. auto.
  - rewrite Hp. exact D1.
Qed.

Theorem commit_leaves_signed g raw now ac c g' li ps : obtained g -> accepts_commit g raw now ac c g' ->
  fc_sender (ac_content ac) = SMember li -> commits g li c ps -> li < 2 ^ 31 ->
  let cs := gc_cipherSuite (gr_context g) in let gid := gc_groupID (gr_context g) in
  all_signed cs gid (gr_value g) -> new_leaves_signed cs gid ps -> all_signed cs gid (gr_value g').
Proof.
  intros O H Hs Hc Hli cs gid D (F1 & F2). pose proof (obtained_sane g O) as Sa. destruct (commit_tree _ _ _ _ _ _ _ _ Sa H Hs Hc) as (v & W & V & Hp).
  assert (D1 : all_signed cs gid v).
  { intros j m Hm. destruct (vapply_from _ _ _ (sane_shape _ Sa) V j m Hm) as [Ho|[Ho|Ho]]; auto. }
  destruct (c_path c) as [up|]; [|now rewrite Hp].
  destruct Hp as (k & sn & S & S' & M & _ & Hsig & _). destruct (merged_leaf _ _ _ _ _ _ S S' M) as [E1 E2].
  rewrite designated_small in E1, E2 by assumption. intros j m Hm. destruct (N.eq_dec j li) as [->|Hj].
  - rewrite E1 in Hm. injection Hm as <-. exact Hsig.
  - rewrite E2 in Hm by assumption. auto.
Qed.
End WithCrypto.
