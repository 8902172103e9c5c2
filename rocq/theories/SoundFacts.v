(** Adding members keeps a tree sound. *)
From Coq Require Import Lia Permutation.
From Verif Require Export SpecSound JoinFacts KeyPackageFacts UnmergedFacts.

(** ** Lists of options *)
Lemma somes_app {A} (a b : list (option A)) : somes (a ++ b) = somes a ++ somes b.
Proof. apply flat_map_app. Qed.
Lemma somes_In {A} (l : list (option A)) x : In x (somes l) <-> In (Some x) l.
Proof.
  unfold somes. rewrite in_flat_map. split.
  - intros ([y|] & H & Hx); cbn in Hx; [|tauto]. destruct Hx as [->|[]]. assumption.
  - intros H. exists (Some x). cbn. auto.
Qed.
Lemma somes_upd {A} (l : list (option A)) : forall i x, nth_error l i = Some None -> Permutation (somes (upd l i (Some x))) (somes l ++ [x]).
Proof.
  induction l as [|o l IH]; intros [|i] x H; cbn in H; try discriminate.
  - injection H as ->. cbn. apply Permutation_cons_append.
  - cbn [upd]. change (o :: upd l i (Some x)) with ([o] ++ upd l i (Some x)). change (o :: l) with ([o] ++ l). rewrite !somes_app. rewrite <- app_assoc. apply Permutation_app_head. now apply IH.
Qed.
Lemma somes_repeat {A} n : somes (repeat (@None A) n) = [].
Proof. induction n; cbn; auto. Qed.

Lemma at_path_map {A B} (f : option A -> option B) k t p : f None = None -> at_path k (map f t) p = f (at_path k t p).
Proof. intros E. unfold at_path. rewrite nth_error_map. destruct (nth_error t (N.to_nat (number k p))); cbn; auto. Qed.
Lemma full_map {A B} (f : option A -> option B) k t : full k t -> full k (map f t).
Proof. intros [F1 F2]. split; auto. now rewrite lenN_map. Qed.

(** The parts of the nodes not affected by one more unmerged leaf *)
Lemma added_map {B} (f : option node -> option B) k t t' li l :
  f None = None -> (forall n, f (Some (with_unmerged li n)) = f (Some n)) ->
  full k t -> added k t t' li l -> leaf_at t li = None -> shaped k t ->
  map f t' = upd (map f t) (N.to_nat (2 * li)) (f (Some (NLeaf l))).
Proof.
  intros E Ef F (S' & Hli & H1 & H2 & H3) Hn S. apply (full_ext k).
  - apply full_map. now apply shaped_full.
  - destruct (full_map f k t F) as [G1 G2]. split; auto. now rewrite lenN_upd.
  - intros p Hp. rewrite at_path_map by assumption. unfold at_path at 2. rewrite upd_nth, nth_error_map.
    destruct (path_eq_dec p (leafPath k li)) as [->|Hne].
    + rewrite H1, leafPath_number, Nat.eqb_refl by assumption.
      assert (Hlt : (N.to_nat (2 * li) < length (map f t))%nat).
      { rewrite map_length. apply (leaf_in_array k t li F) in Hli. unfold lenN in Hli. lia. }
      apply Nat.ltb_lt in Hlt. now rewrite Hlt.
    + assert (Hnn : (N.to_nat (number k p) =? N.to_nat (2 * li))%nat = false).
      { apply Nat.eqb_neq. intros X. apply N2Nat.inj in X. rewrite <- (leafPath_number k li Hli) in X. apply number_inj in X; auto. apply leafPath_in. }
      rewrite Nat.eqb_sym, Hnn. cbn [andb].
      assert (X : match option_map f (nth_error t (N.to_nat (number k p))) with Some o => o | None => None end = f (at_path k t p)).
      { unfold at_path. destruct (nth_error t (N.to_nat (number k p))); cbn; auto. }
      rewrite X. destruct (above_dec p (leafPath k li)) as [Ha|Ha].
      * rewrite H2 by assumption. destruct (at_path k t p); cbn; auto.
      * now rewrite H3.
Qed.

(** ** One more member *)
Lemma memN_app x a b : memN x (a ++ b) = memN x a || memN x b.
Proof. unfold memN. apply existsb_app. Qed.
Lemma filter_filter_out (ex us : list N) li : ~ In li us ->
  filter (fun u => negb (existsb (N.eqb u) (ex ++ [li]))) us = filter (fun u => negb (existsb (N.eqb u) ex)) us.
Proof.
  intros H. apply filter_ext_in. intros u Hu. rewrite existsb_app. cbn. rewrite orb_false_r.
  destruct (N.eqb_spec u li) as [->|]; [contradiction|]. now rewrite orb_false_r.
Qed.

Section Added.
Context {C : crypto} (k : nat) (t t' : ratchetTree) (li : N) (l : leafNode).
Context (Sh : shaped k t) (A : added k t t' li l) (Free : leaf_at t li = None) (Mem : lists_members_below k t).

Lemma added_li : li < leaf_count k.
Proof. apply A. Qed.
Lemma added_designated : designated li = li.
Proof. apply (designated_leaf k); [apply Sh|exact added_li]. Qed.
Lemma not_listed p pn : in_tree k p -> at_path k t p = Some (NParent pn) -> ~ In li (pn_unmergedLeaves pn).
Proof. intros Hp H Hi. destruct (Mem p pn li Hp H Hi) as (_ & _ & Hn). congruence. Qed.
Lemma was_blank : at_path k t (leafPath k li) = None.
Proof. rewrite (shaped_leaf k) by (auto; exact added_li). now rewrite Free. Qed.

Lemma at_added p : in_tree k p -> at_path k t' p =
  if path_eq_dec p (leafPath k li) then Some (NLeaf l)
  else if in_dec path_eq_dec p (proper_ancestors (leafPath k li)) then option_map (with_unmerged li) (at_path k t p) else at_path k t p.
Proof.
  intros Hp. destruct A as (_ & Hli & H1 & H2 & H3). destruct (path_eq_dec p (leafPath k li)) as [->|Hne]; [assumption|].
  destruct (in_dec path_eq_dec p (proper_ancestors (leafPath k li))) as [Ha|Ha]; rewrite <- above_In in Ha; auto.
Qed.

Lemma shownLeaf_added ex p : in_tree k p -> shownLeaf k t' (ex ++ [li]) p = shownLeaf k t ex p \/ length p <> k.
Proof.
  intros Hp. destruct (Nat.eq_dec (length p) k) as [Hl|Hl]; [left|now right]. unfold shownLeaf. rewrite existsb_app. cbn [existsb]. rewrite orb_false_r.
  destruct (leafPath_onto k p Hl) as [Ep Hv]. destruct (N.eqb_spec (val p) li) as [E|E].
  - rewrite orb_true_r. rewrite Ep, E, was_blank. destruct (existsb _ ex); reflexivity.
  - rewrite orb_false_r. destruct (existsb _ ex); [reflexivity|]. rewrite at_added by assumption.
    destruct (path_eq_dec p (leafPath k li)) as [Eq|_].
    { exfalso. apply E. apply (leafPath_inj k); auto; [exact added_li|]. congruence. }
    destruct (in_dec path_eq_dec p (proper_ancestors (leafPath k li))) as [Ha|_]; [|reflexivity].
    apply above_In, above_length in Ha. rewrite leafPath_length in Ha. lia.
Qed.
Lemma shownParent_added ex p : (length p < k)%nat -> shownParent k t' (ex ++ [li]) p = shownParent k t ex p.
Proof.
  intros Hp. assert (Hin : in_tree k p) by (unfold in_tree; lia). unfold shownParent. rewrite at_added by assumption.
  destruct (path_eq_dec p (leafPath k li)) as [->|_]; [rewrite leafPath_length in Hp; lia|].
  destruct (at_path k t p) as [[lf|n]|] eqn:E.
  - now destruct (in_dec path_eq_dec p (proper_ancestors (leafPath k li))).
  - pose proof (not_listed p n Hin E) as Hn. destruct (in_dec path_eq_dec p (proper_ancestors (leafPath k li))); cbn.
    + rewrite filter_app. cbn. rewrite (existsb_app _ ex [li]). cbn. rewrite N.eqb_refl, orb_true_r. cbn. rewrite app_nil_r.
      now rewrite filter_filter_out.
    + now rewrite filter_filter_out.
  - now destruct (in_dec path_eq_dec p (proper_ancestors (leafPath k li))).
Qed.

Lemma tree_hash_added cs ex d : forall p, (length p + d)%nat = k -> tree_hash cs k t' (ex ++ [li]) d p = tree_hash cs k t ex d p.
Proof.
  induction d as [|d IH]; intros p Hp; cbn [tree_hash].
  - destruct (shownLeaf_added ex p) as [->|H]; [unfold in_tree; lia|reflexivity|lia].
  - rewrite shownParent_added by lia. rewrite !IH by (rewrite app_length; cbn; lia). reflexivity.
Qed.

Lemma tree_hash_elsewhere cs ex d : forall p, (length p + d)%nat = k -> ~ ancestor_or_self p (leafPath k li) ->
  tree_hash cs k t' ex d p = tree_hash cs k t ex d p.
Proof.
  induction d as [|d IH]; intros p Hp Ha; cbn [tree_hash];
    (assert (E : at_path k t' p = at_path k t p) by
      (rewrite at_added by (unfold in_tree; lia); destruct (path_eq_dec p (leafPath k li)) as [->|_]; [exfalso; apply Ha; exists []; now rewrite app_nil_r|];
       destruct (in_dec path_eq_dec p (proper_ancestors (leafPath k li))) as [Hi|_]; [|reflexivity]; apply above_In, above_spec in Hi; tauto)).
  - unfold shownLeaf. now rewrite E.
  - unfold shownParent. rewrite E.
    rewrite !IH; try reflexivity; try (rewrite app_length; cbn; lia); intros (s & X); apply Ha; [exists (true :: s)|exists (false :: s)]; rewrite X, <- app_assoc; reflexivity.
Qed.

(** The resolutions have at most the new leaf in addition. *)
Lemma resolution_added d : forall p x, (length p + d)%nat = k ->
  (In x (resolution k t' d p) -> x = leafPath k li \/ In x (resolution k t d p)) /\
  (In x (resolution k t d p) -> x <> leafPath k li /\ In x (resolution k t' d p)).
Proof.
  induction d as [|d IH]; intros p x Hp; assert (Hin : in_tree k p) by (unfold in_tree; lia); pose proof (at_added p Hin) as Ea.
  - destruct (path_eq_dec p (leafPath k li)) as [->|Hne].
    + cbn. rewrite Ea, was_blank. cbn. intuition.
    + assert (Es : at_path k t' p = at_path k t p).
      { rewrite Ea. destruct (in_dec path_eq_dec p (proper_ancestors (leafPath k li))) as [Ha|_]; [|reflexivity].
        apply above_In, above_length in Ha. rewrite leafPath_length in Ha. lia. }
      cbn. rewrite Es. destruct (at_path k t p) as [[lf|n]|] eqn:E.
      * cbn. intuition. subst. contradiction.
      * destruct Sh as [_ Pl]. apply Pl in E; [|assumption]. cbn in E. lia.
      * cbn. tauto.
  - destruct (path_eq_dec p (leafPath k li)) as [->|Hne]; [rewrite leafPath_length in Hp; lia|].
    cbn [resolution]. rewrite Ea. destruct (at_path k t p) as [[lf|n]|] eqn:E.
    + destruct Sh as [_ Pl]. apply Pl in E; [|assumption]. cbn in E. lia.
    + assert (Hx : In x (p :: map (fun u => leafPath k (designated u)) (pn_unmergedLeaves n)) -> x <> leafPath k li).
      { intros [<-|H]; [assumption|]. apply in_map_iff in H. destruct H as (u & <- & Hu). destruct (Mem p n u Hin E Hu) as (H1 & _ & H2).
        rewrite (designated_leaf k) by (auto; apply Sh). intros X. apply leafPath_inj in X; auto; [|exact added_li]. congruence. }
      destruct (in_dec path_eq_dec p (proper_ancestors (leafPath k li))); cbn [option_map with_unmerged pn_unmergedLeaves].
      * rewrite map_app. cbn [map]. rewrite added_designated. cbn [In] in *. rewrite in_app_iff. cbn [In]. intuition.
      * intuition.
    + assert (R : (In x (resolution k t' d (p ++ [false]) ++ resolution k t' d (p ++ [true])) -> x = leafPath k li \/ In x (resolution k t d (p ++ [false]) ++ resolution k t d (p ++ [true]))) /\
        (In x (resolution k t d (p ++ [false]) ++ resolution k t d (p ++ [true])) -> x <> leafPath k li /\ In x (resolution k t' d (p ++ [false]) ++ resolution k t' d (p ++ [true])))).
      { destruct (IH (p ++ [false]) x) as [F1 F2]; [rewrite app_length; cbn; lia|]. destruct (IH (p ++ [true]) x) as [T1 T2]; [rewrite app_length; cbn; lia|].
        rewrite !in_app_iff. split; intros [H|H]; [apply F1 in H|apply T1 in H|apply F2 in H|apply T2 in H]; tauto. }
      destruct (in_dec path_eq_dec p (proper_ancestors (leafPath k li))); exact R.
Qed.

Lemma resolution_in d : forall p x, (length p + d)%nat = k -> In x (resolution k t d p) -> in_tree k x.
Proof.
  induction d as [|d IH]; intros p x Hp H; cbn [resolution] in H; assert (Hin : in_tree k p) by (unfold in_tree; lia);
    destruct (at_path k t p) as [[lf|n]|].
  all: try (destruct H as [<-|H]; [assumption|]; try (destruct H; fail); try (apply in_map_iff in H; destruct H as (u & <- & _); apply leafPath_in)).
  - destruct H.
  - apply in_app_iff in H. destruct H as [H|H]; eapply IH in H; eauto; rewrite app_length; cbn; lia.
Qed.

Lemma hash_below_added p h : in_tree k p -> h <> [] -> ln_parentHash l = [] -> hash_below k t' p h <-> hash_below k t p h.
Proof.
  intros Hp Hh Hl. unfold hash_below. assert (Hd : (length p + (k - length p))%nat = k) by (unfold in_tree in Hp; lia).
  assert (X : forall q, in_tree k q -> q <> leafPath k li -> forall n', at_path k t' q = Some n' -> exists n, at_path k t q = Some n /\ parentHashOf n' = parentHashOf n).
  { intros q Hq Hne n' H. rewrite at_added in H by assumption. destruct (path_eq_dec q (leafPath k li)); [contradiction|].
    destruct (in_dec path_eq_dec q (proper_ancestors (leafPath k li))); [|eauto].
    destruct (at_path k t q) as [n1|]; [|discriminate]. cbn in H. injection H as <-. exists n1. split; [reflexivity|]. now destruct n1. }
  split; intros (q & n & Hr & Hn & E).
  - destruct (resolution_added _ p q Hd) as [R1 _]. destruct (R1 Hr) as [->|R].
    + rewrite at_added in Hn by apply leafPath_in. destruct (path_eq_dec (leafPath k li) (leafPath k li)); [|contradiction]. injection Hn as <-. cbn in E. congruence.
    + pose proof (resolution_in _ p q Hd R) as Hq. destruct (resolution_added _ p q Hd) as [_ R2]. destruct (R2 R) as [Hne _].
      destruct (X q Hq Hne n Hn) as (n0 & E0 & E1). exists q, n0. splits; auto. congruence.
  - pose proof (resolution_in _ p q Hd Hr) as Hq. destruct (resolution_added _ p q Hd) as [_ R2]. destruct (R2 Hr) as [Hne R].
    pose proof (at_added q Hq) as Ea. destruct (path_eq_dec q (leafPath k li)); [contradiction|]. rewrite Hn in Ea.
    destruct (in_dec path_eq_dec q (proper_ancestors (leafPath k li))); cbn in Ea; eexists q, _; splits; eauto. now destruct n.
Qed.

Lemma child_of (p : path) b : above p (p ++ [b]).
Proof. now exists b, []. Qed.

Lemma parent_hashes_added cs : crypto_ok C -> ln_parentHash l = [] -> parent_hashes_valid cs k t -> parent_hashes_valid cs k t'.
Proof.
  intros HC Hl V p n' Hp H. assert (Hlen : (length p < k)%nat). { destruct A as ((_ & Pl) & _). apply Pl in H; assumption. }
  assert (Hk : forall b, in_tree k (p ++ [b])) by (intros b; unfold in_tree; rewrite app_length; cbn; lia).
  assert (Hh : forall ek ph sh, parent_hash cs ek ph sh <> []).
  { intros ek ph sh E. pose proof (ok_hash C HC (hashOf cs) (enc_parentHashInput ek ph sh)) as X. unfold parent_hash, answer in E. rewrite E in X.
    destruct (hashOf cs); discriminate X. }
  pose proof (at_added p Hp) as Ea. rewrite H in Ea. destruct (path_eq_dec p (leafPath k li)) as [->|Hne]; [discriminate|].
  destruct (in_dec path_eq_dec p (proper_ancestors (leafPath k li))) as [Ha|Ha].
  - destruct (at_path k t p) as [[?|n]|] eqn:E; try discriminate. cbn in Ea. injection Ea as ->. specialize (V p n Hp E).
    unfold parent_hash_valid in *. cbn [pn_encryptionKey pn_parentHash pn_unmergedLeaves].
    rewrite !tree_hash_added by (rewrite app_length; cbn; lia). rewrite !hash_below_added by auto. exact V.
  - symmetry in Ea. specialize (V p n' Hp Ea). rewrite <- above_In in Ha. unfold parent_hash_valid in *. rewrite !hash_below_added by auto.
    rewrite !tree_hash_elsewhere; try (rewrite app_length; cbn; lia); [exact V| |]; intros (s & X); apply Ha; eexists _, s; rewrite X, <- app_assoc; reflexivity.
Qed.

Lemma unmerged_added : unmerged_below k t -> unmerged_below k t'.
Proof.
  intros U p pn u Hp H Hu.
  assert (Between : forall v q n, above q (leafPath k v) -> at_path k t' q = Some n -> exists qn, n = NParent qn).
  { intros v q n Hq Hn. apply above_length in Hq. rewrite leafPath_length in Hq. destruct A as ((_ & Pl) & _). apply Pl in Hn; [|unfold in_tree; lia].
    destruct n; [cbn in Hn; lia|eauto]. }
  pose proof (at_added p Hp) as Ea. rewrite H in Ea. destruct (path_eq_dec p (leafPath k li)) as [->|Hne]; [discriminate|].
  assert (Old : forall n, at_path k t p = Some (NParent n) -> In u (pn_unmergedLeaves n) ->
    designated u < leaf_count k /\ above p (leafPath k (designated u)) /\
    forall q m, above p q -> above q (leafPath k (designated u)) -> at_path k t' q = Some m -> exists qn, m = NParent qn /\ In u (pn_unmergedLeaves qn)).
  { intros n E Hi. destruct (U p n u Hp E Hi) as (U1 & U2 & U3). splits; auto. intros q m Hpq Hqu Hm.
    assert (Hq : in_tree k q) by (eapply above_in; eauto; apply leafPath_in).
    pose proof (at_added q Hq) as Eq. rewrite Hm in Eq. destruct (path_eq_dec q (leafPath k li)) as [->|_]; [now apply leaf_not_above in Hqu|].
    destruct (in_dec path_eq_dec q (proper_ancestors (leafPath k li))).
    - destruct (at_path k t q) as [m0|] eqn:E0; [|discriminate]. destruct (U3 q m0 Hpq Hqu E0) as (qn & -> & Hqn). cbn in Eq. injection Eq as ->.
      eexists. split; [reflexivity|]. cbn. apply in_app_iff. now left.
    - symmetry in Eq. exact (U3 q m Hpq Hqu Eq). }
  destruct (in_dec path_eq_dec p (proper_ancestors (leafPath k li))) as [Ha|Ha].
  - destruct (at_path k t p) as [[?|n]|] eqn:E; try discriminate. cbn in Ea. injection Ea as ->. cbn in Hu. apply in_app_iff in Hu. destruct Hu as [Hu|[<-|[]]].
    + now apply (Old n).
    + rewrite added_designated. splits; [exact added_li|now apply above_In|]. intros q m Hpq Hq Hm.
      assert (Hin : in_tree k q) by (eapply above_in; eauto; apply leafPath_in). destruct (Between _ _ _ Hq Hm) as (qn & ->).
      pose proof (at_added q Hin) as Eq. rewrite Hm in Eq. destruct (path_eq_dec q (leafPath k li)) as [->|_]; [discriminate|].
      destruct (in_dec path_eq_dec q (proper_ancestors (leafPath k li))) as [_|X]; [|now rewrite <- above_In in X].
      destruct (at_path k t q) as [[?|q0]|]; try discriminate. cbn in Eq. injection Eq as ->. eexists. split; [reflexivity|]. cbn. apply in_app_iff. cbn. auto.
  - symmetry in Ea. now apply (Old pn).
Qed.

Lemma members_added : lists_members_below k t'.
Proof.
  destruct (added_leaf k t t' li l Sh A) as [L1 L2].
  assert (L : forall u, leaf_at t u <> None -> leaf_at t' u <> None). { intros u Hu. destruct (N.eq_dec u li) as [->|Hne]; [congruence|]. now rewrite L2. }
  intros p pn u Hp H Hu. pose proof (at_added p Hp) as Ea. rewrite H in Ea. destruct (path_eq_dec p (leafPath k li)) as [->|Hne]; [discriminate|].
  destruct (in_dec path_eq_dec p (proper_ancestors (leafPath k li))) as [Ha|Ha].
  - destruct (at_path k t p) as [[?|n]|] eqn:E; try discriminate. cbn in Ea. injection Ea as ->. cbn in Hu. apply in_app_iff in Hu. destruct Hu as [Hu|[<-|[]]].
    + destruct (Mem p n u Hp E Hu) as (M1 & M2 & M3). splits; auto.
    + splits; [exact added_li|now apply above_In|congruence].
  - symmetry in Ea. destruct (Mem p pn u Hp Ea Hu) as (M1 & M2 & M3). splits; auto.
Qed.

Lemma wf_added : wf_nodes t -> wf_leafNode l -> wf_nodes t'.
Proof.
  intros W Wl. apply Forall_forall. intros o Ho. apply In_nth_error in Ho. destruct Ho as (i & Hi).
  assert (Hlt : N.of_nat i < node_count k). { destruct A as ((F' & _) & _). destruct F' as [_ F']. rewrite <- F'. unfold lenN. assert (i < length t')%nat by (apply nth_error_Some; congruence). lia. }
  destruct (number_onto k _ Hlt) as (p & Hp & E).
  assert (X : at_path k t' p = o). { unfold at_path. rewrite E, Nat2N.id, Hi. reflexivity. }
  rewrite at_added in X by assumption. rewrite <- X.
  assert (Wp : wf_optionalNode (at_path k t p)).
  { unfold at_path. destruct (nth_error t (N.to_nat (number k p))) as [o'|] eqn:Eo; [|exact I]. apply nth_error_In in Eo. unfold wf_nodes in W. rewrite Forall_forall in W. auto. }
  destruct (path_eq_dec p (leafPath k li)); [exact Wl|]. destruct (in_dec path_eq_dec p (proper_ancestors (leafPath k li))); [|exact Wp].
  destruct (at_path k t p) as [[?|n1]|]; auto. cbn in *. unfold wf_parentNode in *. cbn. apply Forall_app. split; [assumption|]. constructor; [|constructor].
  unfold u32. pose proof added_li. pose proof (leaf_count_31 k (proj1 (shaped_full k t Sh))). change (2 ^ 31) with 2147483648 in *. change (2 ^ 32) with 4294967296. lia.
Qed.
End Added.

(** ** A larger tree *)
Section Grown.
Context {C : crypto} (k : nat) (t : ratchetTree) (Sh : shaped k t) (Hk : fits (S k)).

Lemma at_grown p : in_tree k p -> at_path (S k) (grown t) (false :: p) = at_path k t p.
Proof. intros Hp. rewrite (at_path_grown k) by (auto; try apply Sh; unfold in_tree in *; cbn; lia). reflexivity. Qed.
Lemma at_grown_inv p n : in_tree (S k) p -> at_path (S k) (grown t) p = Some n -> exists q, p = false :: q /\ in_tree k q /\ at_path k t q = Some n.
Proof.
  intros Hp H. rewrite (at_path_grown k) in H by (auto; apply Sh). destruct p as [|[|] q]; try discriminate. exists q. splits; auto. unfold in_tree in *. cbn in Hp. lia.
Qed.

Lemma tree_hash_grown cs ex d : forall p, (length p + d)%nat = k -> tree_hash cs (S k) (grown t) ex d (false :: p) = tree_hash cs k t ex d p.
Proof.
  induction d as [|d IH]; intros p Hp; cbn [tree_hash].
  - unfold shownLeaf. rewrite at_grown by (unfold in_tree; lia). reflexivity.
  - unfold shownParent. rewrite at_grown by (unfold in_tree; lia). change ((false :: p) ++ [false]) with (false :: (p ++ [false])). change ((false :: p) ++ [true]) with (false :: (p ++ [true])).
    rewrite !IH by (rewrite app_length; cbn; lia). reflexivity.
Qed.

Lemma resolution_grown d : lists_members_below k t -> forall p, (length p + d)%nat = k -> resolution (S k) (grown t) d (false :: p) = map (cons false) (resolution k t d p).
Proof.
  intros Mem. assert (Hkk : fits k) by (unfold fits in *; lia).
  assert (U : forall p n, in_tree k p -> at_path k t p = Some (NParent n) ->
    map (fun u => leafPath (S k) (designated u)) (pn_unmergedLeaves n) = map (cons false) (map (fun u => leafPath k (designated u)) (pn_unmergedLeaves n))).
  { intros p n Hp E. rewrite map_map. apply map_ext_in. intros u Hu. destruct (Mem p n u Hp E Hu) as (H1 & _).
    rewrite (designated_leaf k) by assumption. now apply leafPath_S. }
  induction d as [|d IH]; intros p Hp; cbn [resolution]; rewrite at_grown by (unfold in_tree; lia).
  - destruct (at_path k t p) as [[?|n]|] eqn:E; try reflexivity. cbn [map]. f_equal. apply (U p); [unfold in_tree; lia|assumption].
  - destruct (at_path k t p) as [[?|n]|] eqn:E; try reflexivity.
    + cbn [map]. f_equal. apply (U p); [unfold in_tree; lia|assumption].
    + change ((false :: p) ++ [false]) with (false :: (p ++ [false])). change ((false :: p) ++ [true]) with (false :: (p ++ [true])).
      rewrite !IH by (rewrite app_length; cbn; lia). now rewrite map_app.
Qed.

Lemma hash_below_grown p h : lists_members_below k t -> in_tree k p -> hash_below (S k) (grown t) (false :: p) h <-> hash_below k t p h.
Proof.
  intros Mem Hp. unfold hash_below. cbn [length]. replace (S k - S (length p))%nat with (k - length p)%nat by lia.
  assert (Hd : (length p + (k - length p))%nat = k) by (unfold in_tree in Hp; lia).
  rewrite resolution_grown by assumption. split.
  - intros (q & n & Hq & Hn & E). apply in_map_iff in Hq. destruct Hq as (q' & <- & Hq'). exists q', n. splits; auto. rewrite <- Hn. symmetry. apply at_grown. eapply resolution_in; eauto.
  - intros (q & n & Hq & Hn & E). exists (false :: q), n. splits; auto; [now apply in_map|]. rewrite at_grown; auto. eapply resolution_in; eauto.
Qed.

Lemma parent_hashes_grown cs : lists_members_below k t -> parent_hashes_valid cs k t -> parent_hashes_valid cs (S k) (grown t).
Proof.
  intros Mem V p n Hp H. destruct (at_grown_inv p _ Hp H) as (q & -> & Hq & E). specialize (V q n Hq E).
  assert (Hlen : (length q < k)%nat). { destruct Sh as [_ Pl]. apply Pl in E; assumption. }
  unfold parent_hash_valid in *. cbn [length app]. replace (S k - S (S (length q)))%nat with (k - S (length q))%nat by lia.
  rewrite !tree_hash_grown by (rewrite app_length; cbn; lia). rewrite !hash_below_grown by (auto; unfold in_tree; rewrite app_length; cbn; lia). exact V.
Qed.

Lemma unmerged_grown : unmerged_below k t -> unmerged_below (S k) (grown t).
Proof.
  intros U p n u Hp H Hu. destruct (at_grown_inv p _ Hp H) as (q & -> & Hq & E). destruct (U q n u Hq E Hu) as (U1 & U2 & U3).
  rewrite (leafPath_S k) by assumption. splits.
  - pose proof (leaf_count_lt k (S k) ltac:(lia)). lia.
  - destruct U2 as (b & s & ->). now exists b, s.
  - intros x m Hqx Hx Hm. assert (Hin : in_tree (S k) x) by (eapply above_in; [exact Hx|]; unfold in_tree; cbn; rewrite leafPath_length; lia).
    destruct (at_grown_inv x m Hin Hm) as (y & -> & Hy & Ey). apply (U3 y); auto.
    + destruct Hqx as (b & s & X). cbn in X. injection X as X. now exists b, s.
    + destruct Hx as (b & s & X). cbn in X. injection X as X. now exists b, s.
Qed.
Lemma members_grown : lists_members_below k t -> lists_members_below (S k) (grown t).
Proof.
  intros M p n u Hp H Hu. destruct (at_grown_inv p _ Hp H) as (q & -> & Hq & E). destruct (M q n u Hq E Hu) as (M1 & M2 & M3). splits.
  - pose proof (leaf_count_lt k (S k) ltac:(lia)). lia.
  - rewrite (leafPath_S k) by assumption. destruct M2 as (b & s & ->). now exists b, s.
  - now rewrite leaf_at_grown.
Qed.
End Grown.

(** ** Adding *)
Lemma full_height {A} j k (t : list (option A)) : full j t -> full k t -> j = k.
Proof.
  intros [_ H1] [_ H2]. rewrite H1, !node_leaf_count in H2. pose proof (leaf_count_pos j). pose proof (leaf_count_pos k).
  destruct (Nat.lt_trichotomy j k) as [L|[L|L]]; auto; apply leaf_count_lt in L; lia.
Qed.

Lemma leafNodesOf_In t l : In l (leafNodesOf t) <-> exists i, nth_error t i = Some (Some (NLeaf l)).
Proof.
  unfold leafNodesOf. rewrite somes_In, in_map_iff. split.
  - intros ([[l0|]|] & E & H); cbn in E; try discriminate. injection E as ->. now apply In_nth_error.
  - intros (i & H). exists (Some (NLeaf l)). split; [reflexivity|]. eapply nth_error_In; eauto.
Qed.
Lemma leaf_at_leafNodesOf t li l : leaf_at t li = Some l -> In l (leafNodesOf t).
Proof.
  unfold leaf_at. intros H. destruct (nth_error t (N.to_nat (2 * li))) as [[[m|]|]|] eqn:E; try discriminate. injection H as ->. apply leafNodesOf_In. eauto.
Qed.
Lemma leafNodesOf_leaf_at k t l : shaped k t -> In l (leafNodesOf t) -> exists li, li < leaf_count k /\ leaf_at t li = Some l.
Proof.
  intros [F Pl] H. apply leafNodesOf_In in H. destruct H as (i & H).
  assert (Hlt : N.of_nat i < node_count k). { destruct F as [_ F]. rewrite <- F. unfold lenN. assert (i < length t)%nat by (apply nth_error_Some; congruence). lia. }
  destruct (number_onto k _ Hlt) as (p & Hp & E).
  assert (X : at_path k t p = Some (NLeaf l)). { unfold at_path. rewrite E, Nat2N.id, H. reflexivity. }
  pose proof (Pl p _ Hp X) as L. cbn in L. destruct (leafPath_onto k p L) as [Ep Hv]. exists (val p). split; [assumption|].
  unfold leaf_at. rewrite <- (leafPath_number k (val p) Hv), <- Ep, E, Nat2N.id, H. reflexivity.
Qed.

Lemma leafNodesOf_grown t : leafNodesOf (grown t) = leafNodesOf t.
Proof.
  unfold leafNodesOf, grown. rewrite map_app, somes_app. replace (map leafPart (repeat None (S (length t)))) with (repeat (@None leafNode) (S (length t))).
  - rewrite somes_repeat. apply app_nil_r.
  - generalize (S (length t)). induction n; cbn; congruence.
Qed.
Lemma keysOf_grown t : encryptionKeysOf (grown t) = encryptionKeysOf t.
Proof.
  unfold encryptionKeysOf, grown. rewrite map_app, somes_app. replace (map (option_map node_encryptionKey) (repeat None (S (length t)))) with (repeat (@None bytes) (S (length t))).
  - rewrite somes_repeat. apply app_nil_r.
  - generalize (S (length t)). induction n; cbn; congruence.
Qed.

Lemma added_leaves k t t' li l : shaped k t -> added k t t' li l -> leaf_at t li = None ->
  Permutation (leafNodesOf t') (leafNodesOf t ++ [l]) /\ Permutation (encryptionKeysOf t') (encryptionKeysOf t ++ [ln_encryptionKey l]).
Proof.
  intros Sh A Hn. pose proof (shaped_full k t Sh) as F. pose proof (was_blank k t t' li l Sh A Hn) as B. assert (Hli : li < leaf_count k) by apply A.
  unfold at_path in B. rewrite leafPath_number in B by assumption.
  assert (Hlt : 2 * li < lenN t) by now apply (leaf_in_array k t). unfold lenN in Hlt.
  destruct (nth_error t (N.to_nat (2 * li))) as [o|] eqn:E; [|apply nth_error_None in E; lia]. subst o.
  unfold leafNodesOf, encryptionKeysOf. split.
  - rewrite (added_map leafPart k t t' li l); auto; [|now intros []]. apply somes_upd. now rewrite nth_error_map, E.
  - rewrite (added_map (option_map node_encryptionKey) k t t' li l); auto; [|now intros []]. apply somes_upd. now rewrite nth_error_map, E.
Qed.

Lemma NoDup_perm_app {A} (a b : list A) x : Permutation b (a ++ [x]) -> NoDup (a ++ [x]) -> NoDup b.
Proof. intros P H. eapply Permutation_NoDup; [symmetry; exact P|assumption]. Qed.

Section WithCrypto.
Context {C : crypto}.

Lemma newcomer_parentHash cs l : newcomer cs l -> ln_parentHash l = [].
Proof. intros (W & S & _). destruct W as (_ & _ & _ & [(_ & _ & H)|[(E & _)|(E & _)]]); [assumption|rewrite S in E; discriminate|rewrite S in E; discriminate]. Qed.

Lemma sound_add cs gid k t l t' : crypto_ok C -> sound_tree cs gid k t -> newcomer cs l -> go_together t [l] -> vadd t l = Ok t' ->
  (exists k', sound_tree cs gid k' t') /\
  Permutation (leafNodesOf t') (leafNodesOf t ++ [l]) /\ Permutation (encryptionKeysOf t') (encryptionKeysOf t ++ [ln_encryptionKey l]) /\
  exists li, leaf_at t li = None /\ leaf_at t' li = Some l /\ (forall j, j <> li -> leaf_at t' j = leaf_at t j).
Proof.
  intros HC [Sh Sm W Sg Cap Sup Sk Ek Ph Un Me] Hl (G1 & G2 & G3) H.
  destruct (add_shape t l t' (or_intror (ex_intro _ k Sh)) H) as (k' & t0 & li & [L1 L2] & Ht0 & S0 & A).
  assert (Base : shaped k' t0 /\ leaf_at t0 li = None /\ lists_members_below k' t0 /\ unmerged_below k' t0 /\ parent_hashes_valid cs k' t0 /\ wf_nodes t0 /\
    leafNodesOf t0 = leafNodesOf t /\ encryptionKeysOf t0 = encryptionKeysOf t /\ (forall j, leaf_at t0 j = leaf_at t j) /\ smallest k' t').
  { assert (Hli : leaf_at t' li <> None). { destruct (added_leaf k' t0 t' li l S0 A) as [X _]. congruence. }
    destruct Ht0 as [->|[-> Hfull]].
    - assert (k' = k) as -> by (eapply full_height; apply shaped_full; eauto). splits; auto.
      destruct Sm as (m & Hm & Hj). exists m. split; [|assumption]. destruct (added_leaf k t t' li l S0 A) as [X Y]. destruct (N.eq_dec m li) as [->|Hne]; [assumption|now rewrite Y].
    - assert (Hk : fits (S k)).
      { destruct S0 as [[Hf Hc] _]. unfold grown in Hc. rewrite lenN_app in Hc. unfold lenN in Hc at 2. rewrite repeat_length in Hc. pose proof (shaped_full k t Sh) as [F1 F2].
        rewrite Nat2N.inj_succ in Hc. fold (lenN t) in Hc. rewrite F2, !node_leaf_count in Hc. pose proof (leaf_count_pos k). pose proof (leaf_count_pos k').
        assert (k < k')%nat by (apply leaf_count_lt_inv; lia). unfold fits in *. lia. }
      assert (k' = S k) as -> by (eapply full_height; [apply shaped_full; eauto|now apply full_grown; [apply shaped_full|]]).
      splits; auto.
      + now rewrite leaf_at_grown.
      + now apply members_grown.
      + now apply unmerged_grown.
      + now apply parent_hashes_grown.
      + unfold wf_nodes, grown. apply Forall_app. split; [assumption|]. apply Forall_forall. intros o Ho. apply repeat_spec in Ho. subst. exact I.
      + apply leafNodesOf_grown.
      + apply keysOf_grown.
      + intros j. apply leaf_at_grown.
      + exists li. split; [assumption|]. intros j Hj.
        assert (leaf_count k <= li). { destruct (N.le_gt_cases (leaf_count k) li) as [|Hlt]; [assumption|]. exfalso. apply (Hfull li); auto. apply (leaf_in_array k t); auto. now apply shaped_full. }
        pose proof (leaf_count_le j k ltac:(lia)). lia. }
  clear Ht0 Sh W Ph Un Me Sm. destruct Base as (_ & Free & Me & Un & Ph & W & EL & EK & ELA & Sm).
  destruct (added_leaves k' t0 t' li l S0 A Free) as [PL PK]. rewrite EL in PL. rewrite EK in PK.
  destruct (added_leaf k' t0 t' li l S0 A) as [LA1 LA2].
  split; [|splits; auto; exists li; splits; auto; intros j Hj; rewrite LA2 by assumption; apply ELA].
  exists k'. destruct Hl as (Wl & Sl & Sgl & Cl). constructor.
  - apply A.
  - assumption.
  - now apply (wf_added k' t0 t' li l).
  - intros j x Hx. destruct (N.eq_dec j li) as [->|Hne].
    + rewrite LA1 in Hx. injection Hx as <-. apply Sgl.
    + rewrite LA2, ELA in Hx by assumption. now apply Sg.
  - eapply Permutation_Forall; [symmetry; exact PL|]. apply Forall_app. split; [assumption|]. now constructor.
  - intros a b Ha Hb. apply G1; eapply Permutation_in; eauto.
  - eapply Permutation_NoDup; [symmetry; apply Permutation_map; exact PL|]. now rewrite map_app.
  - eapply Permutation_NoDup; [symmetry; exact PK|assumption].
  - apply (parent_hashes_added k' t0 t' li l); auto. apply (newcomer_parentHash cs). splits; auto.
  - now apply (unmerged_added k' t0 t' li l).
  - now apply (members_added k' t0 t' li l).
Qed.
End WithCrypto.
