(** Commits keep parent nodes parent-hash valid. *)
From Coq Require Import Lia.
From Verif Require Export SpecParent SoundFacts CommitTreeFacts CrashFacts.
From Verif Require Import RemovedFacts KeyFacts. From Verif Require Import SpecIntegrity.

Section WithCrypto.
Context {C : crypto}.

Definition valid (cs : N) (k : nat) (t : ratchetTree) : Prop :=
  shaped k t /\ lists_members_below k t /\
  forall p n, in_tree k p -> at_path k t p = Some (NParent n) -> rfc_parent_valid cs k t p n.

(** ** Resolutions *)
Lemma resolution_under k t d : lists_members_below k t -> fits k -> forall p x, (length p + d)%nat = k -> In x (resolution k t d p) -> ancestor_or_self p x.
Proof.
  intros L Hk. induction d as [|d IH]; intros p x Hp H; cbn [resolution] in H; assert (Hin : in_tree k p) by (unfold in_tree; lia);
    destruct (at_path k t p) as [[lf|n]|] eqn:E.
  all: try (destruct H as [<-|H]; [exists []; now rewrite app_nil_r|]; try (destruct H; fail);
            try (apply in_map_iff in H; destruct H as (u & <- & Hu); destruct (L p n u Hin E Hu) as (L1 & (b & s & L2) & _); rewrite (designated_leaf k) by assumption; now exists (b :: s))).
  - destruct H.
  - apply in_app_iff in H. destruct H as [H|H]; apply IH in H; try (rewrite app_length; cbn; lia); destruct H as (s & ->); eexists; rewrite <- app_assoc; reflexivity.
Qed.

(** ** The same subtree *)
Definition same_below (k : nat) (t t' : ratchetTree) (p : path) : Prop :=
  forall x, in_tree k x -> ancestor_or_self p x -> at_path k t' x = at_path k t x.
Lemma same_child k t t' p b : same_below k t t' p -> same_below k t t' (p ++ [b]).
Proof. intros H x Hx (s & ->). apply H; [assumption|]. exists (b :: s). now rewrite <- app_assoc. Qed.
Lemma tree_hash_same cs k t t' ex d : forall p, (length p + d)%nat = k -> same_below k t t' p -> tree_hash cs k t' ex d p = tree_hash cs k t ex d p.
Proof.
  induction d as [|d IH]; intros p Hp S; cbn [tree_hash]; (assert (E : at_path k t' p = at_path k t p) by (apply S; [unfold in_tree; lia|exists []; now rewrite app_nil_r])).
  - unfold shownLeaf. now rewrite E.
  - unfold shownParent. rewrite E. rewrite !IH; auto using same_child; rewrite app_length; cbn; lia.
Qed.
Lemma resolution_same k t t' d : forall p, (length p + d)%nat = k -> same_below k t t' p -> resolution k t' d p = resolution k t d p.
Proof.
  induction d as [|d IH]; intros p Hp S; cbn [resolution]; (assert (E : at_path k t' p = at_path k t p) by (apply S; [unfold in_tree; lia|exists []; now rewrite app_nil_r])); rewrite E; destruct (at_path k t p) as [[?|?]|]; auto.
  rewrite !IH; auto using same_child; rewrite app_length; cbn; lia.
Qed.
Lemma valid_same cs k t t' p n : fits k -> lists_members_below k t -> (length p < k)%nat -> same_below k t t' p ->
  rfc_parent_valid cs k t p n -> rfc_parent_valid cs k t' p n.
Proof.
  intros Hk L Hp Sb (b & q & (H1 & d & H2 & H3) & H4).
  assert (Hl : forall b, (length (p ++ [b]) + (k - S (length p)))%nat = k) by (intros; rewrite app_length; cbn; lia).
  exists b, q. unfold linked_from, all_merged. rewrite (resolution_same k t t') by (auto using same_child). rewrite (tree_hash_same cs k t t') by (auto using same_child).
  split; [|exact H4]. split; [exact H1|]. exists d. split; [|exact H3]. rewrite <- H2.
  pose proof (resolution_under k t _ L Hk _ _ (Hl b) H1) as Hu. apply (same_child _ _ _ _ b) in Sb. apply Sb; [|exact Hu].
  eapply resolution_in; [exact (Hl b)|exact H1].
Qed.

(** ** Updates and removals *)
Lemma outside k p li : ~ above p (leafPath k li) -> (length p < k)%nat -> forall x, in_tree k x -> ancestor_or_self p x -> x <> leafPath k li /\ ~ above x (leafPath k li).
Proof.
  intros Na Hp x Hx (s & ->). split.
  - intros E. destruct s as [|b s]; [rewrite app_nil_r in E; subst; rewrite leafPath_length in Hp; lia|]. apply Na. now exists b, s.
  - intros (b & r & E). apply Na. rewrite E, <- app_assoc. destruct s as [|c s]; [now exists b, r|]. now exists c, (s ++ b :: r).
Qed.
Lemma valid_replaced cs k t t' li o : shaped k t' -> replaced k t t' li o -> (forall pn, o <> Some (NParent pn)) -> valid cs k t -> valid cs k t'.
Proof.
  intros Sh' R Ho (Sh & L & V). pose proof (proj1 (shaped_full _ _ Sh)) as Hk. pose proof (replaced_leaf k t t' li o Sh Sh' R) as [_ RL]. destruct R as (F' & Hli & A' & B' & O').
  assert (G : forall p n, in_tree k p -> at_path k t' p = Some (NParent n) -> ~ above p (leafPath k li) /\ (length p < k)%nat /\ at_path k t p = Some (NParent n)).
  { intros p n Hp E. assert (Na : ~ above p (leafPath k li)) by (intros Ha; rewrite (B' p Hp Ha) in E; discriminate).
    assert (Np : p <> leafPath k li) by (intros ->; rewrite A' in E; now apply Ho in E). splits; auto; [|now rewrite O' in E]. apply (proj2 Sh') in E; assumption. }
  split; [assumption|]. split.
  - intros p n u Hp E Hu. destruct (G p n Hp E) as (Na & _ & E0). destruct (L p n u Hp E0 Hu) as (L1 & L2 & L3). splits; auto. rewrite RL; [assumption|]. intros ->. contradiction.
  - intros p n Hp E. destruct (G p n Hp E) as (Na & Hl & E0). apply (valid_same cs k t t'); auto. intros x Hx Ha. destruct (outside k p li Na Hl x Hx Ha). now apply O'.
Qed.

(** ** Trees of different heights *)
Definition pad (k k' : nat) (p : path) : path := repeat false (k - k') ++ p.
Lemma val_pad k k' p : val (pad k k' p) = val p.
Proof. unfold pad. induction (k - k')%nat as [|d IHd]; cbn [repeat app val N.b2n]; [reflexivity|]. rewrite N.mul_0_l, N.add_0_l. exact IHd. Qed.
Lemma pad_length k k' p : (k' <= k)%nat -> length (pad k k' p) = (k - k' + length p)%nat.
Proof. intros. unfold pad. now rewrite app_length, repeat_length. Qed.
Lemma pad_in k k' p : (k' <= k)%nat -> in_tree k' p -> in_tree k (pad k k' p).
Proof. intros H Hp. unfold in_tree in *. rewrite pad_length by assumption. lia. Qed.
Lemma pad_snoc k k' p b : pad k k' p ++ [b] = pad k k' (p ++ [b]).
Proof. unfold pad. now rewrite app_assoc. Qed.
Lemma pad_inj k k' p q : pad k k' p = pad k k' q -> p = q.
Proof. apply app_inv_head. Qed.
Lemma pad_leaf k k' u : (k' <= k)%nat -> u < leaf_count k' -> leafPath k u = pad k k' (leafPath k' u).
Proof. apply leafPath_pad. Qed.
Lemma pad_under k k' p q : ancestor_or_self (pad k k' p) (pad k k' q) <-> ancestor_or_self p q.
Proof.
  unfold pad. split; intros (s & E); exists s.
  - rewrite <- app_assoc in E. now apply app_inv_head in E.
  - now rewrite E, app_assoc.
Qed.

Section Part.
Context (k k' : nat) (t t' : ratchetTree) (Hle : (k' <= k)%nat) (E : forall p, in_tree k' p -> at_path k' t' p = at_path k t (pad k k' p)).
Context (Hk : fits k) (L' : forall p n u, in_tree k' p -> at_path k' t' p = Some (NParent n) -> In u (pn_unmergedLeaves n) -> u < leaf_count k').

Lemma fits_part : fits k'.
Proof. unfold fits in *. lia. Qed.
Lemma tree_hash_part cs ex d : forall p, (length p + d)%nat = k' -> tree_hash cs k t ex d (pad k k' p) = tree_hash cs k' t' ex d p.
Proof.
  induction d as [|d IH]; intros p Hp; cbn [tree_hash].
  - unfold shownLeaf. rewrite val_pad, E by (unfold in_tree; lia). reflexivity.
  - unfold shownParent. rewrite E by (unfold in_tree; lia). rewrite !pad_snoc, !IH by (rewrite app_length; cbn; lia). reflexivity.
Qed.
Lemma part_leaf p n u : in_tree k' p -> at_path k' t' p = Some (NParent n) -> In u (pn_unmergedLeaves n) -> leafPath k (designated u) = pad k k' (leafPath k' (designated u)).
Proof. intros Hp Hn Hu. pose proof (L' p n u Hp Hn Hu) as Lu. rewrite (designated_leaf k') by (auto using fits_part). now apply pad_leaf. Qed.
Lemma resolution_part d : forall p, (length p + d)%nat = k' -> resolution k t d (pad k k' p) = map (pad k k') (resolution k' t' d p).
Proof.
  assert (U : forall p n, in_tree k' p -> at_path k' t' p = Some (NParent n) ->
    map (fun u => leafPath k (designated u)) (pn_unmergedLeaves n) = map (pad k k') (map (fun u => leafPath k' (designated u)) (pn_unmergedLeaves n))).
  { intros p n Hp En. rewrite map_map. apply map_ext_in. intros u Hu. eapply part_leaf; eauto. }
  induction d as [|d IH]; intros p Hp; assert (Hin : in_tree k' p) by (unfold in_tree; lia); cbn [resolution]; rewrite <- E by assumption.
  - destruct (at_path k' t' p) as [[?|n]|] eqn:En; try reflexivity. cbn [map]. f_equal. now apply (U p).
  - destruct (at_path k' t' p) as [[?|n]|] eqn:En; try reflexivity.
    + cbn [map]. f_equal. now apply (U p).
    + rewrite !pad_snoc, !IH by (rewrite app_length; cbn; lia). now rewrite map_app.
Qed.
Lemma valid_part cs p n : (length p < k')%nat -> at_path k' t' p = Some (NParent n) -> rfc_parent_valid cs k t (pad k k' p) n <-> rfc_parent_valid cs k' t' p n.
Proof.
  intros Hp Hn. assert (Hin : in_tree k' p) by (unfold in_tree; lia).
  assert (Hd : (k - S (length (pad k k' p)) = k' - S (length p))%nat) by (rewrite pad_length by assumption; lia).
  assert (Hl : forall b, (length (p ++ [b]) + (k' - S (length p)))%nat = k') by (intros; rewrite app_length; cbn; lia).
  assert (Hq : forall b q, In q (resolution k' t' (k' - S (length p)) (p ++ [b])) -> in_tree k' q) by (intros b q H; eapply resolution_in; [exact (Hl b)|exact H]).
  unfold rfc_parent_valid, linked_from, all_merged. rewrite Hd. split.
  - intros (b & q0 & (H1 & d & H2 & H3) & H4). rewrite !pad_snoc in *. rewrite resolution_part in H1 by auto. rewrite tree_hash_part in H3 by auto. rewrite resolution_part in H4 by auto.
    apply in_map_iff in H1. destruct H1 as (q & <- & H1). exists b, q. split; [split; [exact H1|]|].
    + exists d. split; [|exact H3]. rewrite E by eauto. exact H2.
    + intros x. split.
      * intros [Hx Hne]. destruct (proj1 (H4 (pad k k' x))) as (u & Hu & Ex & Ha). { split; [now apply in_map|]. intros X. apply pad_inj in X. contradiction. }
        exists u. rewrite (part_leaf p n) in Ex by assumption. apply pad_inj in Ex. splits; auto. now apply (pad_under k k').
      * intros (u & Hu & -> & Ha). destruct (proj2 (H4 (pad k k' (leafPath k' (designated u))))) as [Hx Hne].
        { exists u. splits; auto; [symmetry; now apply (part_leaf p n)|now apply pad_under]. }
        split; [|intros X; apply Hne; now rewrite X]. apply in_map_iff in Hx. destruct Hx as (y & Y & Hy). apply pad_inj in Y. now subst y.
  - intros (b & q & (H1 & d & H2 & H3) & H4). exists b, (pad k k' q). rewrite !pad_snoc. rewrite resolution_part, tree_hash_part by auto. split; [split|].
    + now apply in_map.
    + exists d. split; [|exact H3]. rewrite <- E by eauto. exact H2.
    + intros x. split.
      * intros [Hx Hne]. apply in_map_iff in Hx. destruct Hx as (y & <- & Hy). destruct (proj1 (H4 y)) as (u & Hu & -> & Ha). { split; [exact Hy|]. intros ->. now apply Hne. }
        exists u. splits; auto; [symmetry; now apply (part_leaf p n)|now apply pad_under].
      * intros (u & Hu & -> & Ha). pose proof (part_leaf p n u Hin Hn Hu) as E0. rewrite E0 in Ha |- *. pose proof (proj1 (pad_under k k' _ _) Ha) as Ha'.
        assert (X : In (leafPath k' (designated u)) (resolution k' t' (k' - S (length p)) (p ++ [b])) /\ leafPath k' (designated u) <> q) by (apply H4; exists u; auto). destruct X as [Hx Hne].
        split; [now apply in_map|]. intros X. apply pad_inj in X. contradiction.
Qed.
End Part.

Lemma valid_truncated cs k t t' : shaped k t -> truncated k t t' -> valid cs k t -> t' = [] \/ exists k', valid cs k' t'.
Proof.
  intros Sh T (_ & L & V). pose proof (truncated_leaf k t t' Sh T) as HL. pose proof (truncated_shaped k t t' Sh T) as W.
  destruct T as [[-> _]|(k' & Hle & F' & -> & _)]; [now left|]. right. exists k'.
  destruct W as [E|(k2 & Sh')]; [exfalso; destruct F' as [_ L']; rewrite E, node_leaf_count in L'; pose proof (leaf_count_pos k'); change (lenN (@nil (option node))) with 0 in L'; lia|].
  rewrite <- (height_unique k' k2 _ F' (shaped_full _ _ Sh')) in Sh'. pose proof (shaped_full _ _ Sh) as F.
  assert (E : forall p, in_tree k' p -> at_path k' (firstn (N.to_nat (node_count k')) t) p = at_path k t (pad k k' p)) by (intros p Hp; now apply at_path_firstn).
  assert (Lt : lists_members_below k' (firstn (N.to_nat (node_count k')) t)).
  { intros q pn u Hq En Hu. rewrite E in En by assumption. destruct (L _ pn u (pad_in k k' q Hle Hq) En Hu) as (L1 & L2 & L3).
    pose proof (above_pad_small k k' q u Hle Hq L1 L2) as Hu'. splits; auto.
    - rewrite (pad_leaf k k' u Hle Hu') in L2. exact (proj1 (above_pad _ _ _) L2).
    - now rewrite HL. }
  split; [assumption|]. split; [exact Lt|]. intros p n Hp En. apply (valid_part k k' t); auto.
  - apply F.
  - intros q pn u Hq Eq Hu. apply (Lt q pn u Hq Eq Hu).
  - apply (proj2 Sh') in En; assumption.
  - apply V; [now apply pad_in|]. now rewrite <- E.
Qed.

Lemma valid_grown cs k t : fits (S k) -> valid cs k t -> valid cs (S k) (grown t).
Proof.
  intros Hk (Sh & L & V). pose proof (shaped_grown k t Sh Hk) as Sh'. split; [assumption|]. split; [now apply members_grown|].
  intros p n Hp En. destruct (at_grown_inv k t Sh Hk p _ Hp En) as (q & -> & Hq & Eq).
  change (false :: q) with (repeat false 1 ++ q). replace 1%nat with (S k - k)%nat by lia. apply (valid_part (S k) k (grown t) t); auto.
  - intros x Hx. unfold pad. replace (S k - k)%nat with 1%nat by lia. symmetry. now apply at_grown.
  - intros x pn u Hx Ex Hu. apply (L x pn u Hx Ex Hu).
  - apply (proj2 Sh) in Eq; assumption.
Qed.

(** ** Additions *)
Lemma above_split (p : path) b x : ancestor_or_self (p ++ [b]) x -> above p x.
Proof. intros (s & ->). exists b, s. now rewrite <- app_assoc. Qed.
Lemma resolution_gets_new k t t' li l : shaped k t -> added k t t' li l -> leaf_at t li = None -> lists_members_below k t ->
  forall d p, (length p + d)%nat = k -> ancestor_or_self p (leafPath k li) -> In (leafPath k li) (resolution k t' d p).
Proof.
  intros Sh A Free L. pose proof (at_added k t t' li l A) as At. pose proof (added_designated k t t' li l Sh A) as De.
  induction d as [|d IH]; intros p Hp (s & Es); assert (Hin : in_tree k p) by (unfold in_tree; lia); cbn [resolution]; rewrite (At p Hin).
  - assert (s = []) as -> by (apply (f_equal (@length bool)) in Es; rewrite leafPath_length, app_length in Es; destruct s; [reflexivity|cbn in Es; lia]).
    rewrite app_nil_r in Es. destruct (path_eq_dec p (leafPath k li)); [|congruence]. left. congruence.
  - destruct (path_eq_dec p (leafPath k li)) as [->|_]; [rewrite leafPath_length in Hp; lia|].
    assert (Ha : above p (leafPath k li)). { destruct s as [|b s]; [|now exists b, s]. rewrite app_nil_r in Es. subst p. rewrite leafPath_length in Hp. lia. }
    destruct (in_dec path_eq_dec p (proper_ancestors (leafPath k li))) as [_|X]; [|now rewrite <- above_In in X].
    destruct (at_path k t p) as [[lf|n]|] eqn:E; cbn [option_map with_unmerged].
    + apply (proj2 Sh) in E; [|assumption]. cbn in E. lia.
    + right. cbn [pn_unmergedLeaves]. rewrite map_app. apply in_app_iff. right. cbn. rewrite De. now left.
    + destruct s as [|b s]; [rewrite app_nil_r in Es; subst p; rewrite leafPath_length in Hp; lia|]. apply in_app_iff.
      destruct b; [right|left]; (apply IH; [rewrite app_length; cbn; lia|]; exists s; rewrite Es, <- app_assoc; reflexivity).
Qed.

Lemma valid_added cs k t t' li l : added k t t' li l -> leaf_at t li = None -> valid cs k t -> valid cs k t'.
Proof.
  intros A Free (Sh & L & V). pose proof (proj1 A) as Sh'. pose proof (members_added k t t' li l Sh A L) as L'. pose proof (proj1 (shaped_full _ _ Sh)) as Hk.
  split; [assumption|]. split; [assumption|]. intros p n' Hp H.
  assert (Hlen : (length p < k)%nat) by (apply (proj2 Sh') in H; assumption).
  assert (Hl : forall b, (length (p ++ [b]) + (k - S (length p)))%nat = k) by (intros; rewrite app_length; cbn; lia).
  pose proof (at_added k t t' li l A) as At. pose proof (added_designated k t t' li l Sh A) as De. pose proof (At p Hp) as Ea. rewrite H in Ea.
  destruct (path_eq_dec p (leafPath k li)) as [->|Hne]; [rewrite leafPath_length in Hlen; lia|].
  destruct (in_dec path_eq_dec p (proper_ancestors (leafPath k li))) as [Ha|Ha].
  - destruct (at_path k t p) as [[?|n]|] eqn:E; try discriminate. cbn in Ea. injection Ea as ->. destruct (V p n Hp E) as (b & q & (H1 & d & H2 & H3) & H4).
    destruct (resolution_added k t t' li l Sh A Free L _ (p ++ [b]) q (Hl b)) as [_ R2]. destruct (R2 H1) as [Hq R]. pose proof (resolution_in k t _ _ _ (Hl b) H1) as Hin.
    exists b, q. unfold linked_from, all_merged. cbn [pn_encryptionKey pn_parentHash pn_unmergedLeaves]. split; [split; [exact R|]|].
    + exists (match d with NParent m => if in_dec path_eq_dec q (proper_ancestors (leafPath k li)) then with_unmerged li d else d | _ => d end). split.
      * rewrite (At q Hin). destruct (path_eq_dec q (leafPath k li)); [contradiction|]. rewrite H2. destruct (in_dec path_eq_dec q (proper_ancestors (leafPath k li))); now destruct d.
      * rewrite (tree_hash_added k t t' li l Sh A Free L) by auto. rewrite <- H3. destruct d; [reflexivity|]. now destruct (in_dec path_eq_dec q (proper_ancestors (leafPath k li))).
    + intros x. destruct (resolution_added k t t' li l Sh A Free L _ (p ++ [b]) x (Hl b)) as [X1 X2]. split.
      * intros [Hx Hxq]. destruct (X1 Hx) as [->|Hx'].
        -- exists li. rewrite De. splits; [apply in_app_iff; cbn; auto|reflexivity|]. exact (resolution_under k t' _ L' Hk _ _ (Hl b) Hx).
        -- destruct (proj1 (H4 x) (conj Hx' Hxq)) as (u & Hu & Eu & Au). exists u. splits; auto. apply in_app_iff. now left.
      * intros (u & Hu & -> & Au). apply in_app_iff in Hu. destruct Hu as [Hu|[<-|[]]].
        -- destruct (proj2 (H4 (leafPath k (designated u)))) as [Hx Hxq]; [exists u; auto|]. split; [|exact Hxq]. now apply X2.
        -- rewrite De in *. split; [|congruence]. exact (resolution_gets_new k t t' li l Sh A Free L _ _ (Hl b) Au).
  - symmetry in Ea. rewrite <- above_In in Ha. apply (valid_same cs k t t'); auto. intros x Hx Ax. destruct (outside k p li Ha Hlen x Hx Ax) as [N1 N2].
    rewrite (At x Hx). destruct (path_eq_dec x (leafPath k li)); [contradiction|]. destruct (in_dec path_eq_dec x (proper_ancestors (leafPath k li))) as [X|_]; [|reflexivity]. apply above_In in X. contradiction.
Qed.

(** ** Update paths *)
Lemma blank_resolution k t d : forall p, blank_below k t d p = true -> resolution k t d p = [].
Proof.
  induction d as [|d IH]; intros p H; cbn [blank_below resolution] in *; destruct (at_path k t p) as [[?|?]|]; try discriminate; [reflexivity|].
  apply andb_true_iff in H. destruct H. now rewrite !IH.
Qed.
Definition merged_node (n : node) : Prop := match n with NLeaf _ => True | NParent pn => pn_unmergedLeaves pn = [] end.
Lemma resolution_single k t d p n : at_path k t p = Some n -> merged_node n -> resolution k t d p = [p].
Proof. intros E M. destruct d; cbn [resolution]; rewrite E; destruct n as [?|pn]; auto; cbn in M; now rewrite M. Qed.

Lemma path_valid_up cs k t t' : forall x, in_tree k x -> forall q n nodes,
  (forall a b s, x = a ++ b :: s -> same_below k t t' (a ++ [negb b])) ->
  (forall y, above y x -> ~ In y (map fst (filtered k t x)) -> at_path k t' y = None) ->
  at_path k t' q = Some n -> resolution k t' (k - length x) x = [q] -> linked cs k t' (filtered k t x) nodes (parentHashOf n) ->
  forall a pn, In a (map fst (filtered k t x)) -> at_path k t' a = Some (NParent pn) -> rfc_parent_valid cs k t' a pn /\ pn_unmergedLeaves pn = [].
Proof.
  induction x as [|b x IH] using rev_ind; intros Hx q n nodes Sb Bl Eq Re Lk a pn Ia Ea; [destruct Ia|].
  assert (Hlx : (length x < k)%nat) by (unfold in_tree in Hx; rewrite app_length in Hx; cbn in Hx; lia). assert (Hin : in_tree k x) by (unfold in_tree; lia).
  pose proof (Sb x b [] eq_refl) as Sx.
  assert (Sb' : forall a b s, x = a ++ b :: s -> same_below k t t' (a ++ [negb b])). { intros a0 b0 s0 ->. apply (Sb a0 b0 (s0 ++ [b])). now rewrite <- app_assoc. }
  assert (Ab : forall y, above y x -> above y (x ++ [b])). { intros y (c & s & ->). exists c, (s ++ [b]). now rewrite <- app_assoc. }
  assert (Nx : forall y, above y x -> y <> x). { intros y Hy ->. apply above_length in Hy. lia. }
  rewrite app_length in Re. cbn [length] in Re. replace (k - (length x + 1))%nat with (k - S (length x))%nat in Re by lia.
  rewrite filtered_snoc in *. rewrite app_length in *. cbn [length] in *. replace (k - (length x + 1))%nat with (k - S (length x))%nat in * by lia.
  destruct (blank_below k t (k - S (length x)) (x ++ [negb b])) eqn:Eb; cbn [app map fst In] in *.
  - apply (IH Hin q n nodes); auto.
    + assert (Ex : at_path k t' x = None). { apply Bl; [now exists b, []|]. intros X. apply filtered_above, above_length in X. lia. }
      assert (Rn : resolution k t' (k - S (length x)) (x ++ [negb b]) = []).
      { rewrite (resolution_same k t t') by (auto; rewrite app_length; cbn; lia). now apply blank_resolution. }
      replace (k - length x)%nat with (S (k - S (length x))) by lia. cbn [resolution]. rewrite Ex. destruct b; cbn [negb] in Rn; rewrite Rn, Re; reflexivity.
  - destruct nodes as [|u nodes]; [destruct Lk|]. cbn [linked] in Lk. destruct Lk as (h' & E1 & E2 & Lk').
    rewrite app_length in E2. cbn [length] in E2. replace (k - (length x + 1))%nat with (k - S (length x))%nat in E2 by lia.
    assert (Vx : rfc_parent_valid cs k t' x (mkParentNode (upn_encryptionKey u) h' [])).
    { exists b, q. unfold linked_from, all_merged. cbn [pn_encryptionKey pn_parentHash pn_unmergedLeaves]. rewrite Re. split; [split; [now left|]|].
      - exists n. split; [exact Eq|exact E2].
      - intros y. split; [intros [[->|[]] Hy]; congruence|intros (v & [] & _)]. }
    destruct (path_eq_dec a x) as [->|Hax].
    + rewrite E1 in Ea. injection Ea as <-. auto.
    + destruct Ia as [Ia|Ia]; [congruence|].
      apply (IH Hin x (NParent (mkParentNode (upn_encryptionKey u) h' [])) nodes); auto.
      * intros y Hy Ny. apply Bl; [auto|]. intros [Y|Y]; [|contradiction]. now apply (Nx y Hy).
      * now apply (resolution_single _ _ _ _ _ E1).
Qed.

Lemma valid_merged cs k t t' li up : shaped k t' -> merged cs k t t' li up -> valid cs k t -> valid cs k t'.
Proof.
  intros Sh' M (Sh & L & V). pose proof (proj1 (shaped_full _ _ Sh)) as Hk. destruct (merged_leaf _ _ _ _ _ _ Sh Sh' M) as [M1 M2]. destruct M as (F' & Hli & A' & Lk & B' & O').
  assert (Off : forall p n, in_tree k p -> at_path k t' p = Some (NParent n) -> above p (leafPath k li) \/ ~ above p (leafPath k li) /\ at_path k t p = Some (NParent n) /\ (length p < k)%nat).
  { intros p n Hp E. destruct (above_dec p (leafPath k li)) as [Ha|Ha]; [now left|right]. assert (Hl : (length p < k)%nat) by (apply (proj2 Sh') in E; assumption).
    splits; auto. rewrite O' in E; auto. intros ->. rewrite leafPath_length in Hl. lia. }
  assert (On : forall p n, in_tree k p -> at_path k t' p = Some (NParent n) -> above p (leafPath k li) -> rfc_parent_valid cs k t' p n /\ pn_unmergedLeaves n = []).
  { intros p n Hp E Ha. eapply (path_valid_up cs k t t' (leafPath k li) (leafPath_in _ _) (leafPath k li)).
    - intros a b s Es x Hx (r & ->). apply O'; [assumption| |].
      + intros X. rewrite Es in X. rewrite <- app_assoc in X. apply app_inv_head in X. cbn in X. injection X as X _. now destruct b.
      + intros (c & r' & X). rewrite Es in X. rewrite <- !app_assoc in X. apply app_inv_head in X. cbn in X. injection X as X _. now destruct b.
    - intros y Hy Ny. now apply B'.
    - exact A'.
    - rewrite leafPath_length. apply (resolution_single _ _ _ _ _ A'). exact I.
    - exact Lk.
    - destruct (in_dec path_eq_dec p (map fst (filtered k t (leafPath k li)))) as [Hi|Hi]; [exact Hi|]. rewrite (B' p Ha Hi) in E. discriminate.
    - exact E. }
  split; [assumption|]. split.
  - intros p n u Hp E Hu. destruct (Off p n Hp E) as [Ha|(Ha & E0 & _)]; [destruct (On p n Hp E Ha) as [_ X]; rewrite X in Hu; destruct Hu|].
    destruct (L p n u Hp E0 Hu) as (L1 & L2 & L3). splits; auto. destruct (N.eq_dec u li) as [->|Hne]; [congruence|]. now rewrite M2.
  - intros p n Hp E. destruct (Off p n Hp E) as [Ha|(Ha & E0 & Hl)]; [now apply On|].
    apply (valid_same cs k t t'); auto. intros x Hx Ax. destruct (outside k p li Ha Hl x Hx Ax). now apply O'.
Qed.

(** ** Commits *)
Definition valid_tree (cs : N) (t : ratchetTree) : Prop := t = [] \/ exists k, valid cs k t.
Lemma valid_height cs k t : shaped k t -> valid_tree cs t -> valid cs k t.
Proof.
  intros Sh [->|(k' & V)].
  - exfalso. destruct Sh as [[_ X] _]. rewrite node_leaf_count in X. pose proof (leaf_count_pos k). change (lenN (@nil (option node))) with 0 in X. lia.
  - now rewrite (height_unique k k' _ (shaped_full _ _ Sh) (shaped_full _ _ (proj1 V))).
Qed.
Lemma valid_each {A} cs (step : ratchetTree -> A -> ratchetTree -> Prop) : (forall t x t', step t x t' -> valid_tree cs t -> valid_tree cs t') ->
  forall t l t', one_by_one step t l t' -> valid_tree cs t -> valid_tree cs t'.
Proof. intros H t l t' O. induction O; eauto. Qed.
Lemma replaced_shaped k t t' li o : shaped k t -> replaced k t t' li o -> match o with Some n => placed k (leafPath k li) n | None => True end -> shaped k t'.
Proof.
  intros [F Pl] (F' & Hli & A' & B' & O') Ho. split; [exact F'|]. intros p n Hp E. destruct (path_eq_dec p (leafPath k li)) as [->|Hne]; [rewrite A' in E; rewrite E in Ho; exact Ho|].
  destruct (above_dec p (leafPath k li)) as [Ha|Ha]; [rewrite B' in E by auto; discriminate|]. rewrite O' in E by auto. now apply Pl.
Qed.
Lemma valid_proposals cs t ps t' : after_proposals t ps t' -> valid_tree cs t -> valid_tree cs t'.
Proof.
  intros (t1 & t2 & H1 & H2 & H3) V.
  assert (V1 : valid_tree cs t1).
  { eapply (valid_each cs updated); [|exact H1|exact V]. intros a [j n] b (k & Sh & R) Va. cbn [fst snd] in R. right. exists k.
    eapply valid_replaced; [eapply replaced_shaped; [exact Sh|exact R|cbn; apply leafPath_length]|exact R|discriminate|now apply valid_height]. }
  assert (V2 : valid_tree cs t2).
  { eapply (valid_each cs removed); [|exact H2|exact V1]. intros a j b (k & u & Sh & R & T) Va.
    assert (Su : shaped k u) by (eapply replaced_shaped; [exact Sh|exact R|exact I]).
    eapply valid_truncated; [exact Su|exact T|]. eapply valid_replaced; [exact Su|exact R|discriminate|now apply valid_height]. }
  eapply (valid_each cs SpecCommitTree.joined); [|exact H3|exact V2]. intros a l b (k & u & j & [Hf _] & Sh & A & D) Va. right. exists k.
  assert (Vu : valid cs k u).
  { destruct D as [->|[-> _]]; [now apply valid_height|]. destruct Va as [->|(k' & Va)].
    - assert (k = 0)%nat as -> by (eapply height_unique; [exact (shaped_full _ _ Sh)|exact (shaped_full _ _ (proj1 strong_grown_nil))]).
      split; [exact Sh|]. split; [apply strong_grown_nil|]. intros p n Hp E. apply (proj2 Sh) in E; [|assumption]. cbn in E. lia.
    - assert (k = S k') as ->. { eapply height_unique; [exact (shaped_full _ _ Sh)|]. destruct (proj1 Va) as [[Fk Fl] _]. split.
        - pose proof (proj1 (shaped_full _ _ Sh)) as Fk'. destruct (shaped_full _ _ Sh) as [_ X]. unfold fits in *.
          assert (lenN (grown a) = 2 * lenN a + 1) as Y by (unfold grown, lenN; rewrite app_length, repeat_length; lia).
          rewrite Y, Fl, !node_leaf_count in X. pose proof (leaf_count_pos k'). pose proof (leaf_count_pos k).
          destruct (Nat.le_gt_cases (S k') k) as [|Hlt]; [lia|]. pose proof (leaf_count_le k k' ltac:(lia)). lia.
        - unfold grown, lenN in *. rewrite app_length, repeat_length. rewrite !node_leaf_count in *. replace (leaf_count (S k')) with (2 * leaf_count k') by (unfold leaf_count; rewrite Nat2N.inj_succ, N.pow_succ_r'; reflexivity). pose proof (leaf_count_pos k'). lia. }
      apply valid_grown; [apply (shaped_full _ _ Sh)|exact Va]. }
  eapply valid_added; [exact A| |exact Vu]. destruct D as [->|[-> _]]; [exact Hf|]. now rewrite leaf_at_grown.
Qed.

Lemma created_valid gid kpp rnd g : createGroup gid kpp rnd = Ok g -> rfc_parents_valid (gc_cipherSuite (gr_context g)) (gr_value g).
Proof.
  intros H. unfold createGroup in H. cbv zeta in H. rewrite first_leaf in H. cbn [rbind] in H.
  apply rbind_ok in H. destruct H as (th & _ & H). apply rbind_ok in H. destruct H as (d & _ & H). apply rbind_ok in H. destruct H as (tag & _ & H).
  apply rbind_ok in H. destruct H as (interim & _ & H). apply rbind_ok in H. destruct H as (psk & _ & H). apply rbind_ok in H. destruct H as (ini & _ & H). apply Ok_inj in H. subst g.
  unfold gr_value; cbn [gr_heap gr_tree]. match goal with |- rfc_parents_valid _ ?t => pose proof (single_shaped (kp_leafNode (kpp_public kpp))) as Sh end.
  exists 0%nat. split; [exact Sh|]. split.
  - intros p n u Hp E. apply (proj2 Sh) in E; [|assumption]. cbn in E. lia.
  - intros p n Hp E. apply (proj2 Sh) in E; [|assumption]. cbn in E. lia.
Qed.

Lemma commit_valid g raw now ac c g' : obtained g -> accepts_commit g raw now ac c g' ->
  rfc_parents_valid (gc_cipherSuite (gr_context g)) (gr_value g) -> rfc_parents_valid (gc_cipherSuite (gr_context g)) (gr_value g').
Proof.
  intros O A V. pose proof A as (Hc & Hb & H). pose proof H as H0. apply acted_on_or in H. destruct H as [[_ []]|(ac' & Hc' & Hau & _ & H)].
  pose proof (carries_fun _ _ _ _ Hc Hc') as <-. rewrite Hb in H. destruct Hau as (_ & _ & li & leaf & Es & _).
  unfold noData in H. destruct (processCommit g ac [] [] now) as [g1 r1] eqn:Ep. cbn [fst snd] in H. apply pair_equal_spec in H. destruct H as [E1 E2]. subst g1.
  destruct r1 as [[]|?|?|]; try discriminate. apply processCommit_ok in Ep. destruct Ep as (c' & proposals & senders & h & t & Hb' & Hck & _).
  rewrite Hb in Hb'. injection Hb' as <-. rewrite Es in Hck. cbn [sender_leafIndex] in Hck. destruct (checkCommit_pairs _ _ _ _ _ Hck) as (ps & Hcm & _).
  destruct (tree_after_commit _ _ _ _ _ _ _ _ O A Es Hcm) as (t1 & Ha & Hp).
  assert (V1 : valid_tree (gc_cipherSuite (gr_context g)) t1) by (eapply valid_proposals; [exact Ha|right; exact V]).
  destruct (c_path c) as [up|].
  - destruct Hp as (_ & k & Sh & Sh' & M). exists k. eapply valid_merged; [exact Sh'|exact M|now apply valid_height].
  - rewrite Hp. destruct V1 as [E|V1]; [|exact V1]. exfalso.
    assert (O' : obtained g') by (eapply obtained_message; eauto). apply (ms_in _ (obtained_state _ O')). rewrite Hp, E. unfold leaf_at. now destruct (N.to_nat _).
Qed.
Theorem messages_keep_valid g raw now g' r : obtained g -> rfc_parents_valid (gc_cipherSuite (gr_context g)) (gr_value g) ->
  unmarshalAndProcessMessage g raw now = (g', Ok r) -> rfc_parents_valid (gc_cipherSuite (gr_context g')) (gr_value g').
Proof.
  intros O V H. destruct (step_cases g raw now) as [(ac & c & A)|[N X]].
  - rewrite H in A. cbn [fst] in A.
    assert (Ec : gc_cipherSuite (gr_context g') = gc_cipherSuite (gr_context g)).
    { destruct (commit_new_state _ _ _ _ _ _ A) as (? & ? & ? & ? & ? & ? & -> & _). reflexivity. }
    rewrite Ec. eapply commit_valid; eauto.
  - rewrite H in X. cbn [fst] in X. destruct X as (Ec & _ & _ & Et & _). rewrite Ec. unfold gr_value in *. rewrite Et.
    assert (Eh : gr_heap g' = gr_heap g); [|now rewrite Eh].
    pose proof H as H1. apply acted_on_or in H1. destruct H1 as [[-> _]|(ac & Hc & _ & _ & H1)]; [reflexivity|].
    destruct (fc_body (ac_content ac)) as [d|p|c] eqn:Eb.
    + now destruct H1 as [-> _].
    + unfold noData, processProposal in H1. rewrite Eb in H1. destruct (generateProposalRef _ _); cbn [fst snd rmap] in H1; apply pair_equal_spec in H1; destruct H1 as [-> H1]; try reflexivity.
    + exfalso. apply (N ac c g'). splits; auto. unfold noData in H1. destruct (processCommit g ac [] [] now) as [g1 r1]. cbn [fst snd] in H1. apply pair_equal_spec in H1. destruct H1 as [-> H1].
      destruct r1; cbn in H1; try discriminate. now rewrite H, <- H1.
Qed.

(** Joining checks the first two conditions. *)
Theorem joined_linked w kpp now g : later_than_1970 now -> groupFromWelcome w kpp now = Ok g ->
  exists k, shaped k (gr_value g) /\ forall p n, in_tree k p -> at_path k (gr_value g) p = Some (NParent n) ->
    exists b q, linked_from (gc_cipherSuite (gr_context g)) k (gr_value g) p n b q.
Proof.
  intros Hn H. destruct (joined _ _ _ _ Hn H) as (gi & k & signer & _ & _ & _ & _ & Sh & (_ & _ & P & _) & _). exists k. split; [exact Sh|]. intros p n Hp E.
  unfold linked_from. destruct (P p n Hp E) as [[F _]|[_ F]]; destruct F as (q & d & F1 & F2 & F3);
    rewrite app_length in F1; cbn [length] in F1; replace (k - (length p + 1))%nat with (k - S (length p))%nat in F1 by lia; eauto 7.
Qed.
End WithCrypto.
