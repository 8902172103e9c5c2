(** Proofs about the order of proposals (C102). *)
From Verif Require Export SpecOrder NodeKeysFacts FollowFacts CommitTreeFacts.
From Coq Require Import Lia Permutation.

Lemma nodes_leaves k : node_count k + 1 = 2 * leaf_count k.
Proof. unfold node_count, leaf_count. rewrite ?Nat2N.inj_succ, ?N.pow_succ_r'. pose proof (N.pow_nonzero 2 (N.of_nat k)). lia. Qed.

Definition node_at (t : ratchetTree) (x : N) : option node := match nth_error t (N.to_nat x) with Some o => o | None => None end.
Lemma node_at_path k t p : node_at t (number k p) = at_path k t p.
Proof. reflexivity. Qed.

(** The nodes that a change of leaves blanks or replaces *)
Definition hit (L : list N) (x : N) : Prop := exists r, In r L /\ (x = 2 * r \/ over x r).
Lemma over_dec k x i : x < node_count k -> over x i \/ ~ over x i.
Proof.
  intros H. destruct (number_onto k x H) as (p & Hp & <-). rewrite (over_at k p i Hp).
  destruct (N.lt_decidable i (leaf_count k)); [|tauto]. destruct (above_dec p (leafPath k i)); tauto.
Qed.
Lemma hit_dec k L x : x < node_count k -> hit L x \/ ~ hit L x.
Proof.
  intros H. induction L as [|r L IH]; [right; intros (r & [] & _)|].
  destruct (N.eq_dec x (2 * r)) as [E|E]; [left; exists r; split; [now left|now left]|].
  destruct (over_dec k x r H) as [O|O]; [left; exists r; split; [now left|now right]|].
  destruct IH as [(r' & I & D)|IH]; [left; exists r'; split; [now right|exact D]|]. right. intros (r' & [<-|I] & D); [tauto|]. apply IH. now exists r'.
Qed.
Lemma hit_perm L L' x : Permutation L L' -> hit L x -> hit L' x.
Proof. intros P (r & I & D). exists r. split; [now apply (Permutation_in r P)|exact D]. Qed.
Lemma over_not_leaf x i j : over x i -> x <> 2 * j.
Proof.
  intros (k & p & Hi & -> & Ha) E. assert (Hp : in_tree k p) by (eapply above_in; [exact Ha|apply leafPath_in]).
  assert (Hj : j < leaf_count k) by (pose proof (number_lt k p Hp) as H; rewrite E in H; pose proof (nodes_leaves k); lia).
  rewrite <- (leafPath_number k j Hj) in E. apply (number_inj k p (leafPath k j) Hp (leafPath_in k j)) in E. subst p.
  now apply (leaf_not_above k i j).
Qed.

Lemma replaced_nodes k t t' r n x : replaced k t t' r n -> full k t -> x < node_count k ->
  (x = 2 * r -> node_at t' x = n) /\ (over x r -> node_at t' x = None) /\ (~ hit [r] x -> node_at t' x = node_at t x).
Proof.
  intros (F & Hr & A & B & O) Ft Hx. destruct (number_onto k x Hx) as (p & Hp & <-). rewrite (over_at k p r Hp), !node_at_path. splits.
  - intros E. rewrite <- (leafPath_number k r Hr) in E. apply (number_inj k p _ Hp (leafPath_in k r)) in E. now subst p.
  - intros [_ Ha]. now apply B.
  - intros H. apply O; auto.
    + intros ->. apply H. exists r. split; [now left|left]. now apply leafPath_number.
    + intros Ha. apply H. exists r. split; [now left|right]. apply over_at; auto.
Qed.

(** ** Updates *)
Definition renewed (t : ratchetTree) (us : list (N * leafNode)) (t' : ratchetTree) : Prop :=
  lenN t' = lenN t /\
  forall x, x < lenN t -> (forall r n, In (r, n) us -> x = 2 * r -> node_at t' x = Some (NLeaf n)) /\
    (forall r, In r (map fst us) -> over x r -> node_at t' x = None) /\
    (~ hit (map fst us) x -> node_at t' x = node_at t x).
Lemma updates_renew t us t' : one_by_one updated t us t' -> NoDup (map fst us) -> renewed t us t'.
Proof.
  intros H. induction H as [t|t [r n] t1 us t' (k & Sh & R) H IH]; intros Nd.
  - split; [reflexivity|]. intros x Hx. splits; [intros r n []|intros r []|reflexivity].
  - cbn [fst snd map] in *. inversion Nd as [|? ? Nr Nd']; subst. destruct (IH Nd') as [L IH']. clear IH.
    pose proof (shaped_full _ _ Sh) as F. assert (L1 : lenN t1 = lenN t) by (destruct R as ((_ & E) & _); destruct F as [_ E']; congruence).
    split; [congruence|]. intros x Hx. destruct (IH' x) as (A & B & O); [congruence|].
    assert (Hk : x < node_count k) by (now rewrite <- (proj2 F)).
    destruct (replaced_nodes k t t1 r _ x R F Hk) as (A1 & B1 & O1). splits.
    + intros r' n' [E|I] Ex; [|now apply (A r' n')]. apply pair_equal_spec in E as [-> ->]. subst x.
      destruct (hit_dec k (map fst us) (2 * r') Hk) as [(r2 & I2 & [E2|V2])|Nh]; [|exfalso; eapply over_not_leaf; eauto|now rewrite O, A1].
      exfalso. apply Nr. assert (r' = r2) by lia. now subst r2.
    + intros r' [E|I] V; [|now apply (B r')]. subst r'.
      destruct (hit_dec k (map fst us) x Hk) as [(r2 & I2 & [E2|V2])|Nh]; [exfalso; eapply over_not_leaf; eauto|now apply (B r2)|]. rewrite O; auto.
    + intros Nh. rewrite O, O1; auto.
      * intros (r2 & [->|[]] & D). apply Nh. exists r2. split; [now left|exact D].
      * intros (r2 & I & D). apply Nh. exists r2. split; [now right|exact D].
Qed.
Lemma tree_nodes_ext k t t' : full k t -> lenN t' = lenN t -> (forall x, x < lenN t -> node_at t x = node_at t' x) -> t = t'.
Proof.
  intros F L H. assert (F' : full k t') by (destruct F as [F1 F2]; split; congruence).
  apply (full_ext k); auto. intros p Hp. rewrite <- !node_at_path. apply H. rewrite (proj2 F). now apply number_lt.
Qed.
Lemma updates_order t us vs a b : Permutation us vs -> NoDup (map fst us) ->
  one_by_one updated t us a -> one_by_one updated t vs b -> a = b.
Proof.
  intros P Nd A B. assert (Nd' : NoDup (map fst vs)) by (eapply Permutation_NoDup; [apply (Permutation_map fst P)|exact Nd]).
  destruct (updates_renew _ _ _ A Nd) as [La Ha]. destruct (updates_renew _ _ _ B Nd') as [Lb Hb].
  destruct A as [t|t u t1 us a (k & Sh & R) A]; [apply Permutation_nil in P; subst; now inversion B|].
  assert (F : full k t) by now apply shaped_full.
  apply (tree_nodes_ext k).
  - destruct F as [F1 F2]. split; congruence.
  - congruence.
  - intros x Hx. rewrite La in Hx. destruct (Ha x Hx) as (A1 & A2 & A3). destruct (Hb x Hx) as (B1 & B2 & B3).
    assert (Hk : x < node_count k) by (now rewrite <- (proj2 F)). pose proof (Permutation_map fst P) as Pm.
    destruct (hit_dec k (map fst (u :: us)) x Hk) as [(r & I & [E|V])|Nh].
    + apply in_map_iff in I as ([r' n] & <- & I). cbn [fst] in E. rewrite (A1 r' n I E). symmetry. apply (B1 r' n); [now apply (Permutation_in _ P)|exact E].
    + rewrite (A2 r I V). symmetry. apply (B2 r); [now apply (Permutation_in _ Pm)|exact V].
    + rewrite (A3 Nh). symmetry. apply B3. intros Hh. apply Nh. eapply hit_perm; [apply Permutation_sym, Pm|exact Hh].
Qed.

(** ** Removals *)
Definition swept (t : ratchetTree) (L : list N) (t' : ratchetTree) : Prop :=
  lenN t' <= lenN t /\
  (forall x, x < lenN t' -> hit L x -> node_at t' x = None) /\
  (forall x, x < lenN t' -> ~ hit L x -> node_at t' x = node_at t x) /\
  (forall li, node_at t (2 * li) <> None -> ~ In li L -> 2 * li < lenN t') /\
  (t' = [] \/ exists k' li, full k' t' /\ li < leaf_count k' /\ node_at t' (2 * li) <> None /\ forall j, (j < k')%nat -> leaf_count j <= li).
Lemma node_at_in t x : node_at t x <> None -> x < lenN t.
Proof.
  unfold node_at. destruct (nth_error t (N.to_nat x)) eqn:E; [|congruence]. intros _.
  assert (N.to_nat x < length t)%nat by (apply nth_error_Some; congruence). unfold lenN. lia.
Qed.
Lemma not_hit L li : ~ In li L -> ~ hit L (2 * li).
Proof. intros N (r & I & [E|V]); [assert (li = r) by lia; now subst|eapply over_not_leaf; eauto]. Qed.
Lemma nth_firstn {A} (l : list A) n i : (i < n)%nat -> nth_error (firstn n l) i = nth_error l i.
Proof. revert l i. induction n as [|n IH]; intros [|a l] [|i] H; cbn; auto; try lia. apply IH. lia. Qed.
Lemma firstn_node {n} (t : ratchetTree) x : x < lenN (firstn n t) -> node_at (firstn n t) x = node_at t x.
Proof.
  intros H. unfold node_at. rewrite nth_firstn; [reflexivity|]. unfold lenN in H. rewrite firstn_length in H. lia.
Qed.
Lemma removed_sweeps t r t' : removed t r t' -> swept t [r] t'.
Proof.
  intros (k & t1 & Sh & R & T). pose proof (shaped_full _ _ Sh) as F. pose proof R as ((_ & L1) & Hr & _).
  assert (N1 : forall x, x < node_count k -> (hit [r] x -> node_at t1 x = None) /\ (~ hit [r] x -> node_at t1 x = node_at t x)).
  { intros x Hx. destruct (replaced_nodes k t t1 r None x R F Hx) as (A & B & O). split; [|exact O]. intros (r' & [<-|[]] & [E|V]); auto. }
  assert (Lf : forall li, node_at t (2 * li) <> None -> ~ In li [r] -> li < leaf_count k /\ at_path k t1 (leafPath k li) <> None).
  { intros li Hn Hi. pose proof (node_at_in _ _ Hn) as Hx. rewrite (proj2 F) in Hx. assert (Hl : li < leaf_count k) by (pose proof (nodes_leaves k); lia). split; [exact Hl|].
    rewrite <- node_at_path, leafPath_number by exact Hl. rewrite (proj2 (N1 _ Hx)); [exact Hn|]. now apply not_hit. }
  destruct T as [[-> B]|(k' & Hk & F' & E & I & li & X & Y & Z)].
  - unfold swept. splits.
    + unfold lenN. cbn. lia.
    + intros x Hx. unfold lenN in Hx. cbn in Hx. lia.
    + intros x Hx. unfold lenN in Hx. cbn in Hx. lia.
    + intros li Hn Hi. destruct (Lf li Hn Hi) as [A1 A2]. now rewrite (B li A1) in A2.
    + now left.
  - assert (Ln : lenN t' <= lenN t1) by (rewrite E; unfold lenN; rewrite firstn_length; lia).
    assert (Nx : forall x, x < lenN t' -> node_at t' x = node_at t1 x) by (rewrite E; intros x Hx; now apply firstn_node).
    unfold swept. splits.
    + rewrite (proj2 F), <- L1. exact Ln.
    + intros x Hx Hh. rewrite Nx by exact Hx. apply N1; [rewrite L1 in Ln; lia|exact Hh].
    + intros x Hx Hh. rewrite Nx by exact Hx. apply N1; [rewrite L1 in Ln; lia|exact Hh].
    + intros j Hn Hi. destruct (Lf j Hn Hi) as [A1 A2]. pose proof (I j A1 A2) as A3. rewrite (proj2 F'). pose proof (nodes_leaves k'). lia.
    + right. exists k', li. splits; auto. rewrite Nx by (rewrite (proj2 F'); pose proof (nodes_leaves k'); lia).
      assert (Hl : li < leaf_count k) by (eapply N.lt_le_trans; [exact X|now apply leaf_count_le]). rewrite <- (leafPath_number k li Hl). exact Y.
Qed.
Lemma hit_cons r L x : hit (r :: L) x <-> hit [r] x \/ hit L x.
Proof.
  split.
  - intros (r' & [<-|I] & D); [left; exists r; split; [now left|exact D]|right; now exists r'].
  - intros [(r' & [<-|[]] & D)|(r' & I & D)]; [exists r|exists r']; (split; [|exact D]); [now left|now right].
Qed.
Lemma removals_sweep L t r t' : one_by_one removed t (r :: L) t' -> swept t (r :: L) t'.
Proof.
  revert t r. induction L as [|r2 L IH]; intros t r H; inversion H as [|? ? t1 ? ? R H']; subst.
  - inversion H'; subst. now apply removed_sweeps.
  - apply IH in H'. apply removed_sweeps in R. pose proof R as (Ln & A & O & I & D). pose proof H' as (Ln' & A' & O' & I' & D').
    assert (Rk : t1 = [] \/ exists k, full k t1) by (destruct D as [->|(k & _ & F & _)]; eauto).
    assert (Hd : forall x, x < lenN t' -> (hit (r2 :: L) x \/ ~ hit (r2 :: L) x)).
    { intros x Hx. destruct Rk as [->|[k F]]; [unfold lenN in *; cbn in *; lia|]. apply (hit_dec k). rewrite <- (proj2 F). lia. }
    unfold swept. splits.
    + lia.
    + intros x Hx Hh. destruct (Hd x Hx) as [Hh'|Nh']; [now apply A'|]. rewrite O' by assumption. apply A; [lia|]. apply hit_cons in Hh as [Hh|Hh]; [exact Hh|contradiction].
    + intros x Hx Nh. rewrite O', O; auto; [lia| |]; intros X; apply Nh; apply hit_cons; auto.
    + intros li Hn Hi. assert (Hr : ~ In li [r]) by (intros [->|[]]; apply Hi; now left). assert (HL : ~ In li (r2 :: L)) by (intros X; apply Hi; now right).
      pose proof (I li Hn Hr) as B. apply I'; [|exact HL]. rewrite O; [exact Hn|exact B|]. now apply not_hit.
    + exact D'.
Qed.
Lemma swept_fun t L L' a b : Permutation L L' -> swept t L a -> swept t L' b -> a = b.
Proof.
  intros P (La & A1 & A2 & A3 & A4) (Lb & B1 & B2 & B3 & B4).
  assert (Out : forall M x y, swept t M y -> x < lenN y -> node_at y x <> None -> ~ hit M x /\ node_at t x = node_at y x).
  { intros M x y (_ & C1 & C2 & _ & C4) Hx Hn.
    assert (Nh : ~ hit M x) by (intros Hh; now rewrite (C1 x Hx Hh) in Hn). split; [exact Nh|]. symmetry. now apply C2. }
  assert (Sa : swept t L a) by (unfold swept; splits; assumption). assert (Sb : swept t L' b) by (unfold swept; splits; assumption).
  assert (Ho : forall M M' y z li k, Permutation M M' -> swept t M y -> swept t M' z -> full k y -> li < leaf_count k -> node_at y (2 * li) <> None -> 2 * li < lenN z).
  { intros M M' y z li k PM Sy Sz Fy Hli Hn. destruct (Out M (2 * li) y Sy) as [Nh E]; [rewrite (proj2 Fy); pose proof (nodes_leaves k); lia|exact Hn|].
    destruct Sz as (_ & _ & _ & I & _). apply I; [now rewrite E|]. intros Hi. apply Nh. exists li. split; [now apply (Permutation_in _ (Permutation_sym PM))|now left]. }
  destruct A4 as [->|(k & li & F & Hli & Hn & Z)].
  - destruct B4 as [->|(k' & li' & F' & Hli' & Hn' & Z')]; [reflexivity|].
    pose proof (Ho _ _ _ _ _ _ (Permutation_sym P) Sb Sa F' Hli' Hn') as X. unfold lenN in X. cbn in X. lia.
  - pose proof (Ho _ _ _ _ _ _ P Sa Sb F Hli Hn) as X. destruct B4 as [->|(k' & li' & F' & Hli' & Hn' & Z')]; [unfold lenN in X; cbn in X; lia|].
    pose proof (Ho _ _ _ _ _ _ (Permutation_sym P) Sb Sa F' Hli' Hn') as X'. rewrite (proj2 F') in X. rewrite (proj2 F) in X'.
    pose proof (nodes_leaves k). pose proof (nodes_leaves k').
    assert (k' = k) as ->. { destruct (Nat.lt_trichotomy k k') as [G|[G|G]]; auto; [apply Z' in G|apply Z in G]; lia. }
    apply (tree_nodes_ext k); [exact F|rewrite (proj2 F), (proj2 F'); reflexivity|]. intros x Hx. pose proof Hx as Hx'. rewrite (proj2 F), <- (proj2 F') in Hx'.
    destruct (hit_dec k L x) as [Hh|Nh]; [now rewrite <- (proj2 F)| |].
    + rewrite A1, B1; auto. eapply hit_perm; eauto.
    + rewrite A2, B2; auto. intros Hh. apply Nh. eapply hit_perm; [apply Permutation_sym, P|exact Hh].
Qed.
Lemma removals_order t rs ss a b : Permutation rs ss -> one_by_one removed t rs a -> one_by_one removed t ss b -> a = b.
Proof.
  intros P A B. destruct rs as [|r rs]; [apply Permutation_nil in P; subst; inversion A; inversion B; congruence|].
  destruct ss as [|s ss]; [apply Permutation_sym, Permutation_nil in P; discriminate|].
  exact (swept_fun t _ _ a b P (removals_sweep _ _ _ _ A) (removals_sweep _ _ _ _ B)).
Qed.

Theorem order_of_proposals t ps qs a b : reordered ps qs -> NoDup (map fst (updatesOf ps)) ->
  after_proposals t ps a -> after_proposals t qs b -> a = b.
Proof.
  intros (Pu & Pr & Pa) Nd (a1 & a2 & A1 & A2 & A3) (b1 & b2 & B1 & B2 & B3).
  assert (a1 = b1) as <- by (eapply updates_order; eauto). assert (a2 = b2) as <- by (eapply removals_order; eauto).
  apply (after_proposals_fun a2 (map (fun l => (PAdd (mkKeyPackage 0 0 [] l [] []), 0)) (additionsOf ps))); exists a2, a2.
  all: set (f := fun l => (PAdd (mkKeyPackage 0 0 [] l [] []), 0)).
  all: assert (E : forall m, updatesOf (map f m) = [] /\ removalsOf (map f m) = [] /\ additionsOf (map f m) = m)
    by (induction m as [|x m (I1 & I2 & I3)]; [splits; reflexivity|cbn [map]; unfold updatesOf, removalsOf, additionsOf in *; cbn [flat_map f fst app kp_leafNode]; splits; congruence]).
  all: destruct (E (additionsOf ps)) as (-> & -> & ->); splits; try constructor; [exact A3 + (rewrite Pa; exact B3)].
Qed.

Section WithCrypto.
Context {C : crypto}.

Lemma NoDup_front {A} (l l' : list A) : NoDup (l ++ l') -> NoDup l.
Proof. intros H. apply (NoDup_app_inv _ _ H). Qed.
Lemma distinct_updates ps : NoDup (changedLeaves ps) -> Forall (fun x => x < 2 ^ 31) (changedLeaves ps) -> NoDup (map fst (updatesOf ps)).
Proof. intros H F. exact (NoDup_front _ _ (NoDup_split_changed ps H F)). Qed.
Lemma accepted_once g raw now ac c g' li ps : accepts_commit g raw now ac c g' -> fc_sender (ac_content ac) = SMember li -> commits g li c ps -> NoDup (changedLeaves ps).
Proof.
  intros H Hs Hc. pose proof H as (_ & Hb & _). apply accepts_commit_inv in H. destruct H as [_ H]. apply processCommit_ok in H.
  destruct H as (c' & proposals & senders & h & t & Hb' & Hck & _). assert (c' = c) by congruence. subst c'. rewrite Hs in Hck. cbn [sender_leafIndex] in Hck.
  unfold checkCommit in Hck. apply rbind_ok in Hck. destruct Hck as (ps' & E & Hck). apply (proj2 (resolveProposals_spec _ _ _ _)) in Hc. rewrite Hc in E. apply Ok_inj in E. subst ps'.
  cbv zeta in Hck. apply rbind_ok in Hck. destruct Hck as ([] & V & _). exact (proj1 (verifyProposalList_targets _ _ V)).
Qed.
(** The tree after a commit, as a function *)
Lemma commit_function g raw now ac c g' li ps : sane g -> accepts_commit g raw now ac c g' -> fc_sender (ac_content ac) = SMember li -> commits g li c ps ->
  exists t, after_proposals (gr_value g) ps t /\
    match c_path c with None => gr_value g' = t | Some up => mergeUpdatePath (gc_cipherSuite (gr_context g)) t li up = Ok (gr_value g') end.
Proof.
  intros Sa H Hs Hc. destruct (commit_tree _ _ _ _ _ _ _ _ Sa H Hs Hc) as (v & W & V & P).
  exists v. split; [now apply vapply_one_by_one; [apply Sa|]|].
  pose proof H as (_ & Hb & _). apply accepts_commit_inv in H. destruct H as [_ H]. apply processCommit_ok in H.
  destruct H as (c' & proposals & senders & h & t & Hb' & Hck & Ha & Hf). assert (c' = c) by congruence. subst c'. rewrite Hs in Hck. cbn [sender_leafIndex] in Hck.
  destruct (checkCommit_pairs _ _ _ _ _ Hck) as (ps' & Hc2 & -> & -> & _). apply (proj2 (resolveProposals_spec _ _ _ _)) in Hc2. apply (proj2 (resolveProposals_spec _ _ _ _)) in Hc.
  rewrite Hc2 in Hc. apply Ok_inj in Hc. subst ps'.
  destruct (applyH_value_ok _ _ _ _ _ _ (proj1 (sane_consistent _ Sa)) Ha) as [V' Pr]. fold (gr_value g) in V'. rewrite V in V'. apply Ok_inj in V'.
  destruct (c_path c) as [up|] eqn:Ep; [|exact P]. destruct P as (k & sn & Sk & _).
  destruct (finishCommit_ok _ _ _ _ _ _ _ _ _ Hf) as (priv & nh & h1 & t1 & th & z & priv1 & ctx & it & psk & es & ini & _ & _ & Hp & _ & Eg').
  rewrite Ep, Hs in Hp. cbn [sender_leafIndex] in Hp. unfold processPath in Hp. cbv zeta in Hp.
  apply rbind_guard in Hp as [_ Hp]. apply rbind_ok in Hp as (o & _ & Hp). apply rbind_ok in Hp as ([sk ek] & _ & Hp). destruct o as [o|]; [|discriminate].
  apply rbind_ok in Hp as (cr & _ & Hp). apply rbind_ok in Hp as ([] & _ & Hp). apply rbind_ok in Hp as ([] & _ & Hp). apply rbind_ok in Hp as ([h3 t3] & Em & Hp).
  rewrite V' in Sk. destruct (mergeH_inv _ k h t li up h3 t3 Pr Sk Em) as (E3 & _).
  apply rbind_ok in Hp as (th' & _ & Hp). apply rbind_ok in Hp as ([z' p'] & _ & Hp). apply Ok_inj in Hp. inversion Hp; subst h3 t3. rewrite V', E3, Eg'. reflexivity.
Qed.

Theorem order_of_commits g m raw raw' now now' ac ac' c c' g' m' li li' ps qs : obtained g -> obtained m -> agree g m ->
  accepts_commit g raw now ac c g' -> fc_sender (ac_content ac) = SMember li -> commits g li c ps ->
  accepts_commit m raw' now' ac' c' m' -> fc_sender (ac_content ac') = SMember li' -> commits m li' c' qs ->
  reordered ps qs -> Forall (fun x => x < 2 ^ 31) (changedLeaves ps) ->
  (exists t, after_proposals (gr_value g) ps t /\ after_proposals (gr_value m) qs t) /\
  (li' = li -> c_path c' = c_path c -> gr_value m' = gr_value g').
Proof.
  intros O Om (S1 & S2 & _) A Hs Hc A' Hs' Hc' R F.
  destruct (commit_function _ _ _ _ _ _ _ _ (obtained_sane g O) A Hs Hc) as (t & T & E).
  destruct (commit_function _ _ _ _ _ _ _ _ (obtained_sane m Om) A' Hs' Hc') as (t' & T' & E').
  rewrite S2 in T'. pose proof (distinct_updates ps (accepted_once _ _ _ _ _ _ _ _ A Hs Hc) F) as Nd.
  assert (t = t') as <- by exact (order_of_proposals _ _ _ _ _ R Nd T T'). split; [exists t; rewrite S2; auto|].
  intros -> Ec. rewrite Ec in E'. rewrite S1 in E'. destruct (c_path c) as [up|]; [|congruence]. rewrite E' in E. now apply Ok_inj in E.
Qed.
End WithCrypto.
