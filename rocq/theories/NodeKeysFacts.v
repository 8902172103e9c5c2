(** Proofs about where the keys of parent nodes come from. *)
From Verif Require Export SpecNodeKeys OwnLeafFacts EpochFacts.
From Coq Require Import Lia.

(** ** Nodes above leaves, in trees of different height *)
Lemma testbit_lt k i : i < leaf_count (S k) -> N.testbit i (N.of_nat k) = false -> i < leaf_count k.
Proof.
  unfold leaf_count. intros H Ht. rewrite Nat2N.inj_succ, N.pow_succ_r' in H. destruct (N.lt_ge_cases i (2 ^ N.of_nat k)) as [|Hge]; [assumption|exfalso].
  rewrite N.testbit_eqb in Ht. apply N.eqb_neq in Ht. apply Ht. assert (i / 2 ^ N.of_nat k = 1) as ->; [|reflexivity].
  symmetry. apply N.div_unique with (i - 2 ^ N.of_nat k); lia.
Qed.
Lemma over_step k p i : i < leaf_count (S k) -> above (false :: p) (leafPath (S k) i) <-> i < leaf_count k /\ above p (leafPath k i).
Proof.
  intros Hi. cbn [leafPath]. split.
  - intros (b & s & E). injection E as E1 E2. split; [now apply testbit_lt|]. exists b, s. exact E2.
  - intros (Hl & b & s & E). change (N.testbit i (N.of_nat k) :: leafPath k i) with (leafPath (S k) i). rewrite leafPath_S by assumption. exists b, s. now rewrite E.
Qed.
Lemma leaf_count_add d k i : i < leaf_count k -> i < leaf_count (d + k).
Proof. intros H. pose proof (leaf_count_le k (d + k)). lia. Qed.
Lemma over_pad d k p i : i < leaf_count (d + k) -> above (repeat false d ++ p) (leafPath (d + k) i) <-> i < leaf_count k /\ above p (leafPath k i).
Proof.
  induction d as [|d IH]; intros Hi; cbn [plus repeat app]; [tauto|]. cbn [plus] in Hi. rewrite over_step by assumption. split.
  - intros [H1 H2]. now apply IH.
  - intros [H1 H2]. assert (Hd : i < leaf_count (d + k)) by now apply leaf_count_add. split; [assumption|]. now apply IH.
Qed.
Lemma number_pad d k p : number (d + k) (repeat false d ++ p) = number k p.
Proof. induction d as [|d IH]; [reflexivity|]. cbn [plus repeat app number]. exact IH. Qed.
Lemma over_at k p i : in_tree k p -> over (number k p) i <-> i < leaf_count k /\ above p (leafPath k i).
Proof.
  intros Hp. split; [|intros [H1 H2]; exists k, p; auto].
  intros (k0 & p0 & Hi & E & Ha). assert (Hp0 : in_tree k0 p0) by (eapply above_in; [exact Ha|apply leafPath_in]).
  set (d := (Nat.max k k0 - k)%nat). set (d0 := (Nat.max k k0 - k0)%nat). assert (Ed : (d + k = d0 + k0)%nat) by lia.
  assert (Ep : repeat false d ++ p = repeat false d0 ++ p0).
  { apply (number_inj (d + k)); [| |rewrite Ed at 2; now rewrite !number_pad].
    - unfold in_tree in *. rewrite app_length, repeat_length. lia.
    - unfold in_tree in *. rewrite app_length, repeat_length. lia. }
  apply (over_pad d); [rewrite Ed; now apply leaf_count_add|]. rewrite Ep, Ed. apply over_pad; [now apply leaf_count_add|auto].
Qed.

(** ** One operation *)
Definition all_stay (t t' : ratchetTree) : Prop := forall x n', parent_at t' x = Some n' -> stays t t' x n'.

Lemma stays_refl t x n : parent_at t x = Some n -> stays t t x n.
Proof. intros H. exists n, []. rewrite app_nil_r. destruct n. splits; auto. Qed.
Lemma all_stay_refl t : all_stay t t.
Proof. intros x n. apply stays_refl. Qed.
Lemma stays_trans t1 t2 t3 x n2 n3 : stays t2 t3 x n3 -> parent_at t2 x = Some n2 -> stays t1 t2 x n2 -> stays t1 t3 x n3.
Proof.
  intros (m & more & H1 & H2 & H3) E (m1 & more1 & G1 & G2 & G3). assert (m = n2) by congruence. subst m.
  exists m1, (more1 ++ more). split; [exact G1|]. subst n3 n2. cbn [pn_encryptionKey pn_parentHash pn_unmergedLeaves] in *. rewrite app_assoc. split; [reflexivity|].
  intros i Hi. destruct (H3 i Hi) as [A|[A1 A2]], (G3 i Hi) as [B|[B1 B2]]; try (left; congruence).
  - right. split; [exact B1|]. apply in_or_app. now left.
  - right. split; [congruence|exact A2].
  - right. auto.
Qed.
Lemma all_stay_trans t1 t2 t3 : all_stay t1 t2 -> all_stay t2 t3 -> all_stay t1 t3.
Proof.
  intros H1 H2 x n3 E. pose proof (H2 x n3 E) as S2. pose proof S2 as (n2 & more & E2 & _). eapply stays_trans; eauto.
Qed.

Lemma parent_at_path k t p n : in_tree k p -> parent_at t (number k p) = Some n <-> at_path k t p = Some (NParent n).
Proof.
  intros Hp. unfold parent_at, at_path. destruct (nth_error t _) as [[[l|m]|]|]; split; intros E; congruence.
Qed.
Lemma parent_at_in k t x n : full k t -> parent_at t x = Some n -> exists p, in_tree k p /\ x = number k p /\ at_path k t p = Some (NParent n).
Proof.
  intros F H. assert (Hx : x < node_count k).
  { rewrite <- (proj2 F). unfold parent_at in H. destruct (nth_error t (N.to_nat x)) eqn:E; [|discriminate].
    assert (N.to_nat x < length t)%nat by (apply nth_error_Some; congruence). unfold lenN. lia. }
  destruct (number_onto k x Hx) as (p & Hp & <-). exists p. splits; auto. now apply parent_at_path in H.
Qed.
Lemma leaf_at_same k t t' i : i < leaf_count k -> at_path k t' (leafPath k i) = at_path k t (leafPath k i) -> leaf_at t' i = leaf_at t i.
Proof.
  intros Hi. unfold at_path, leaf_at. rewrite leafPath_number by assumption.
  destruct (nth_error t' _) as [[[l|m]|]|], (nth_error t _) as [[[l'|m']|]|]; intros E; congruence.
Qed.

(** Changes at a leaf and above it only *)
Lemma elsewhere_stays k t t' li p n : in_tree k p -> li < leaf_count k ->
  (forall q, in_tree k q -> q <> leafPath k li -> ~ above q (leafPath k li) -> at_path k t' q = at_path k t q) ->
  at_path k t' p = Some (NParent n) -> p <> leafPath k li -> ~ above p (leafPath k li) -> stays t t' (number k p) n.
Proof.
  intros Hp Hli H E N1 N2. exists n, []. rewrite app_nil_r. split; [|split; [now destruct n|]].
  - apply parent_at_path; auto. rewrite <- H; auto.
  - intros i Hi. left. apply over_at in Hi; [|assumption]. destruct Hi as [Hi Ha]. apply (leaf_at_same k); auto. apply H.
    + apply leafPath_in.
    + intros Eq. rewrite Eq in Ha. auto.
    + intros Hab. apply above_length in Hab. rewrite !leafPath_length in Hab. lia.
Qed.
Lemma replaced_stay k t t' li o : replaced k t t' li o -> (forall n, o <> Some (NParent n)) -> all_stay t t'.
Proof.
  intros (F' & Hli & H1 & H2 & H3) Ho x n E. destruct (parent_at_in _ _ _ _ F' E) as (p & Hp & -> & Ep).
  destruct (path_eq_dec p (leafPath k li)) as [->|N1]; [exfalso; apply (Ho n); congruence|].
  destruct (above_dec p (leafPath k li)) as [A|N2]; [rewrite H2 in Ep by auto; discriminate|]. eapply elsewhere_stays; eauto.
Qed.
Lemma updated_stay t u t' : updated t u t' -> all_stay t t'.
Proof. intros (k & _ & H). eapply replaced_stay; [exact H|discriminate]. Qed.
Lemma nth_firstn {A} n : forall (l : list A) i, (i < n)%nat -> nth_error (firstn n l) i = nth_error l i.
Proof. induction n as [|n IH]; intros [|a l] [|i] H; try lia; cbn; auto. apply IH. lia. Qed.
Lemma truncated_stay k t t' : full k t -> truncated k t t' -> all_stay t t'.
Proof.
  intros F [[-> _]|(k' & Hk & F' & E & Hl & _)] x n H.
  - unfold parent_at in H. destruct (N.to_nat x); discriminate.
  - destruct (parent_at_in _ _ _ _ F' H) as (p & Hp & Ex & _). assert (Hx : x < node_count k') by (subst x; now apply number_lt).
    exists n, []. rewrite app_nil_r. split; [|split; [now destruct n|]].
    + unfold parent_at in *. rewrite E in H. rewrite nth_firstn in H by lia. exact H.
    + intros i Hi. left. destruct (N.lt_ge_cases i (leaf_count k')) as [Hlt|Hge].
      * unfold leaf_at. rewrite E, nth_firstn; [reflexivity|]. pose proof (node_leaf_count k'). lia.
      * rewrite (leaf_at_out k' t' i) by assumption. destruct (N.lt_ge_cases i (leaf_count k)) as [Hlt|Hge'].
        -- destruct (at_path k t (leafPath k i)) as [m|] eqn:Em.
           ++ exfalso. assert (i < leaf_count k') by (apply Hl; congruence). lia.
           ++ unfold at_path in Em. unfold leaf_at. rewrite leafPath_number in Em by assumption. destruct (nth_error t _) as [[[?|?]|]|]; congruence.
        -- now rewrite (leaf_at_out k t i).
Qed.
Lemma removed_stay t li t' : removed t li t' -> all_stay t t'.
Proof.
  intros (k & t1 & _ & H & Ht). eapply all_stay_trans; [eapply replaced_stay; [exact H|discriminate]|]. apply (truncated_stay k); [apply H|exact Ht].
Qed.
Lemma grown_stay t : all_stay t (grown t) /\ forall i, leaf_at (grown t) i = leaf_at t i.
Proof.
  assert (G : forall i, nth_error (grown t) i = nth_error t i \/ nth_error (grown t) i = Some None /\ nth_error t i = None \/
                        nth_error (grown t) i = None /\ nth_error t i = None).
  { intros i. unfold grown. destruct (Nat.lt_ge_cases i (length t)) as [H|H]; [left; now apply nth_error_app1|right].
    assert (nth_error t i = None) as -> by now apply nth_error_None. rewrite nth_error_app2 by assumption.
    destruct (nth_error (repeat None _) _) eqn:E; [left|now right]. apply nth_error_In, repeat_spec in E. now subst. }
  assert (L : forall i, leaf_at (grown t) i = leaf_at t i).
  { intros i. unfold leaf_at. destruct (G (N.to_nat (2 * i))) as [->|[[-> ->]|[-> ->]]]; reflexivity. }
  split; [|exact L]. intros x n H. exists n, []. rewrite app_nil_r. split; [|split; [now destruct n|auto]].
  unfold parent_at in *. destruct (G (N.to_nat x)) as [<-|[[E _]|[E _]]]; [exact H|rewrite E in H; discriminate|rewrite E in H; discriminate].
Qed.
Lemma added_stay k t t' li l : added k t t' li l -> leaf_at t li = None -> all_stay t t'.
Proof.
  intros ((F' & _) & Hli & H1 & H2 & H3) Hf x n E. destruct (parent_at_in _ _ _ _ F' E) as (p & Hp & -> & Ep).
  destruct (path_eq_dec p (leafPath k li)) as [->|N1]; [congruence|].
  destruct (above_dec p (leafPath k li)) as [A|N2]; [|eapply elsewhere_stays; eauto].
  rewrite H2 in Ep by auto. destruct (at_path k t p) as [[l0|m]|] eqn:Et; try discriminate. cbn in Ep. assert (Em : n = mkParentNode (pn_encryptionKey m) (pn_parentHash m) (pn_unmergedLeaves m ++ [li])) by congruence.
  exists m, [li]. split; [now apply parent_at_path|split; [exact Em|]]. intros i Hi. destruct (N.eq_dec i li) as [->|Hne].
  - right. split; [exact Hf|]. subst n. cbn. apply in_or_app. right. now left.
  - left. apply over_at in Hi; [|assumption]. destruct Hi as [Hi Ha]. apply (leaf_at_same k); auto. apply H3.
    + apply leafPath_in.
    + intros Eq. apply Hne. now apply (leafPath_inj k).
    + intros Hab. apply above_length in Hab. rewrite !leafPath_length in Hab. lia.
Qed.
Lemma joined_stay t l t' : SpecCommitTree.joined t l t' -> all_stay t t'.
Proof.
  intros (k & t0 & li & [Hf _] & _ & Ha & [->|[-> _]]); [eapply added_stay; eauto|].
  destruct (grown_stay t) as [G L]. eapply all_stay_trans; [exact G|]. eapply added_stay; [exact Ha|]. now rewrite L.
Qed.
Lemma one_by_one_stay {A} (step : ratchetTree -> A -> ratchetTree -> Prop) : (forall t x t', step t x t' -> all_stay t t') ->
  forall t l t', one_by_one step t l t' -> all_stay t t'.
Proof. intros Hs t l t' H. induction H; [apply all_stay_refl|]. eapply all_stay_trans; eauto. Qed.
Lemma proposals_stay t ps t' : after_proposals t ps t' -> all_stay t t'.
Proof.
  intros (t1 & t2 & H1 & H2 & H3). eapply all_stay_trans; [eapply one_by_one_stay; [apply updated_stay|exact H1]|].
  eapply all_stay_trans; [eapply one_by_one_stay; [apply removed_stay|exact H2]|]. eapply one_by_one_stay; [apply joined_stay|exact H3].
Qed.
Lemma same_but_unmerged_stay t t' : same_but_unmerged t t' -> all_stay t t'.
Proof.
  intros H x n E. pose proof (same_but_unmerged_nth t t' (N.to_nat x) H) as G. unfold parent_at in E.
  destruct (nth_error t' (N.to_nat x)) as [[[l|m]|]|]; try discriminate. injection E as ->.
  destruct (nth_error t (N.to_nat x)) as [[[l|m]|]|] eqn:Et; cbn in G; try tauto. destruct G as (us & ->).
  exists m, us. split; [unfold parent_at; now rewrite Et|]. split; [reflexivity|]. intros i _. left. now apply same_leaf.
Qed.

Section WithCrypto.
Context {C : crypto}.

Lemma linked_keys cs k t l : forall us h a n, linked cs k t l us h -> In a (map fst l) -> at_path k t a = Some (NParent n) ->
  exists u, In u us /\ upn_encryptionKey u = pn_encryptionKey n.
Proof.
  induction l as [|[b s] l IH]; intros us h a n H Hin E; [destruct Hin|]. destruct us as [|u us]; [destruct H|].
  cbn [linked] in H. destruct H as (h' & H1 & _ & H2). destruct Hin as [<-|Hin].
  - exists u. split; [now left|]. cbn [fst] in E. assert (n = mkParentNode (upn_encryptionKey u) h' []) as -> by congruence. reflexivity.
  - destruct (IH us h' a n H2 Hin E) as (v & Hv & Ev). exists v. split; [now right|exact Ev].
Qed.
Lemma merged_stay cs k t t' li up x n : merged cs k t t' li up -> parent_at t' x = Some n ->
  stays t t' x n \/ over x li /\ exists u, In u (up_nodes up) /\ upn_encryptionKey u = pn_encryptionKey n.
Proof.
  intros (F' & Hli & H1 & H2 & H3 & H4) E. destruct (parent_at_in _ _ _ _ F' E) as (p & Hp & -> & Ep).
  destruct (path_eq_dec p (leafPath k li)) as [->|N1]; [congruence|].
  destruct (above_dec p (leafPath k li)) as [A|N2]; [|left; eapply elsewhere_stays; eauto].
  right. split; [apply over_at; auto|]. destruct (in_dec path_eq_dec p (map fst (filtered k t (leafPath k li)))) as [Hin|Hn].
  - eapply linked_keys; eauto.
  - rewrite H3 in Ep by auto. discriminate.
Qed.

Theorem parents_after_commit g raw now ac c g' x n : obtained g -> accepts_commit g raw now ac c g' -> parent_at (gr_value g') x = Some n ->
  stays (gr_value g) (gr_value g') x n \/ brings_key g ac c x (pn_encryptionKey n).
Proof.
  intros O A E. pose proof (obtained_sane _ O) as Sa. pose proof (accepts_commit_inv _ _ _ _ _ _ A) as [Hau Ep].
  pose proof Hau as (_ & _ & li & leaf & Hs & _).
  apply processCommit_ok in Ep. destruct Ep as (c1 & pr & sn & h & t0 & Hb1 & Hck & _). pose proof A as (_ & Hb & _). assert (c1 = c) by congruence. subst c1.
  rewrite Hs in Hck. cbn [sender_leafIndex] in Hck. destruct (checkCommit_pairs _ _ _ _ _ Hck) as (ps & Hc & _).
  destruct (tree_after_commit _ _ _ _ _ _ _ _ O A Hs Hc) as (v & V & P). apply proposals_stay in V.
  destruct (c_path c) as [up|] eqn:Ec; [|left; rewrite P in *; now apply V].
  destruct P as (_ & k & S1 & S2 & M). destruct (merged_stay _ _ _ _ _ _ _ _ M E) as [G|(Ho & u & Hu & Eu)].
  - left. pose proof G as (m & more & Em & _). eapply stays_trans; [exact G|exact Em|]. now apply V.
  - right. exists (designated li), up, u. splits; auto. now apply authentic_signed.
Qed.

Lemma other_messages_same g raw now g' r : obtained g -> unmarshalAndProcessMessage g raw now = (g', r) ->
  (exists ac c, accepts_commit g raw now ac c g') \/ all_stay (gr_value g) (gr_value g').
Proof.
  intros O H. pose proof H as H0. apply acted_on_or in H. destruct H as [[-> _]|(ac & Hca & Hau & _ & H)]; [right; apply all_stay_refl|].
  destruct (fc_body (ac_content ac)) as [d|p|c] eqn:Eb.
  - destruct H as (-> & _). right. apply all_stay_refl.
  - right. unfold noData, processProposal in H. rewrite Eb in H. destruct (generateProposalRef _ _) as [ref|?|?|]; cbn [fst snd rmap] in H;
      try (assert (g' = g) as -> by congruence; apply all_stay_refl). apply pair_equal_spec in H. destruct H as [-> _]. apply all_stay_refl.
  - destruct r as [d|e|p|].
    + left. destruct Hau as (_ & _ & li & leaf & Es & _). exists ac, c. splits; auto.
      unfold noData in H. destruct (processCommit g ac [] [] now) as [g1 r1]. cbn [fst snd] in H. apply pair_equal_spec in H as [<- E].
      destruct r1 as [[]|?|?|]; try discriminate. cbn in E. congruence.
    + right. destruct (error_outcome _ _ _ _ _ O H0) as [(_ & Hu & _) _]. now apply same_but_unmerged_stay.
    + right. unfold noData, processCommit in H. rewrite Eb in H.
      destruct (checkCommit _ _ _) as [[ps ss]|?|?|]; try (assert (g' = g) as -> by (cbn in H; congruence); apply all_stay_refl).
      destruct (applyH _ _ _ _) as [[h t]|?|?|]; try (assert (g' = g) as -> by (cbn in H; congruence); apply all_stay_refl).
      destruct (finishCommit _ _ _ _ _ _ _ _) as [g1|?|?|]; cbn in H; try discriminate; assert (g' = g) as -> by congruence; apply all_stay_refl.
    + right. unfold noData, processCommit in H. rewrite Eb in H.
      destruct (checkCommit _ _ _) as [[ps ss]|?|?|]; try (assert (g' = g) as -> by (cbn in H; congruence); apply all_stay_refl).
      destruct (applyH _ _ _ _) as [[h t]|?|?|]; try (assert (g' = g) as -> by (cbn in H; congruence); apply all_stay_refl).
      destruct (finishCommit _ _ _ _ _ _ _ _) as [g1|?|?|]; cbn in H; try discriminate; assert (g' = g) as -> by congruence; apply all_stay_refl.
Qed.

Theorem parents_over_histories l : forall g x n, obtained g -> parent_at (gr_value (after g l)) x = Some n ->
  stays (gr_value g) (gr_value (after g l)) x n \/
  exists l1 raw now l2 ac c g2, l = l1 ++ (raw, now) :: l2 /\ let g1 := after g l1 in
    accepts_commit g1 raw now ac c g2 /\ brings_key g1 ac c x (pn_encryptionKey n) /\ stays (gr_value g2) (gr_value (after g l)) x n.
Proof.
  induction l as [|[raw now] l IH]; intros g x n O E; [left; now apply stays_refl|]. cbn [after] in *.
  destruct (unmarshalAndProcessMessage g raw now) as [g' r] eqn:Er. cbn [fst] in *.
  assert (O' : obtained g') by (eapply obtained_message; [exact O|eassumption]).
  destruct (IH g' x n O' E) as [G|(l1 & raw1 & now1 & l2 & ac & c & g2 & -> & R)].
  2: { right. exists ((raw, now) :: l1), raw1, now1, l2, ac, c, g2. split; [reflexivity|]. cbn [after]. rewrite Er. exact R. }
  pose proof G as (m & more & Em & En & _).
  destruct (other_messages_same _ _ _ _ _ O Er) as [(ac & c & A)|K].
  - destruct (parents_after_commit _ _ _ _ _ _ _ _ O A Em) as [S|B].
    + left. eapply stays_trans; eauto.
    + right. exists [], raw, now, l, ac, c, g'. split; [reflexivity|]. cbn [after]. splits; auto. now rewrite En.
  - left. eapply stays_trans; eauto.
Qed.

Theorem parents_after_invitation g kps rs ri rh rg g' r x n : obtained g -> createWelcome g kps rs ri rh rg = (g', r) ->
  parent_at (gr_value g') x = Some n -> stays (gr_value g) (gr_value g') x n.
Proof. intros O H. destruct (welcome_outcome _ _ _ _ _ _ _ _ O H) as [(_ & Hu & _) _]. now apply same_but_unmerged_stay. Qed.
Theorem parents_of_founders gid kpp rnd g x : createGroup gid kpp rnd = Ok g -> parent_at (gr_value g) x = None.
Proof.
  intros H. apply created_rfc in H. destruct H as [H _]. unfold parent_at. rewrite H. destruct (N.to_nat x) as [|[|?]]; reflexivity.
Qed.
End WithCrypto.
