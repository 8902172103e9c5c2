(** How much countMessage counts. *)
From Verif Require Import CrashFacts ObtainedFacts.
From Verif Require Export MessageWorkFacts SpecMessageWork.

(** ** How far a tree grows *)
(** [t] is no longer than [L], or its members are at its first leaves and fill a
    fixed part of it. *)
Definition slow_growth (L j : N) (t : ratchetTree) : Prop :=
  well_shaped t /\
  (lenN t <= L \/
   exists m, lenN t + 1 <= 4 * m /\ 2 * m <= L + 1 + 2 * j /\
     (forall i, i < m -> leaf_at t i <> None) /\ (forall i, m <= i -> leaf_at t i = None)).
Lemma slow_more L j t : slow_growth L j t -> slow_growth L (j + 1) t.
Proof. intros (W & [H|(m & H)]); (split; [assumption|]); [now left|right; exists m; splits; try apply H; lia]. Qed.

Lemma lenN_grown {A} (t : list (option A)) : lenN (grown t) = 2 * lenN t + 1.
Proof. unfold grown, lenN. rewrite app_length, repeat_length. lia. Qed.
Lemma shaped_len k t : shaped k t -> lenN t + 1 = 2 * leaf_count k.
Proof. intros [[_ H] _]. rewrite H, node_leaf_count. pose proof (leaf_count_pos k). lia. Qed.
Lemma lenN_same_height k (t t' : ratchetTree) : shaped k t -> shaped k t' -> lenN t = lenN t'.
Proof. intros H H'. apply shaped_len in H, H'. lia. Qed.
Lemma beyond t j : well_shaped t -> lenN t <= 2 * j -> leaf_at t j = None.
Proof.
  intros [->|(k & Sh)] H; [unfold leaf_at; now destruct (N.to_nat (2 * j))|].
  apply (leaf_at_out k); [now apply shaped_full|]. apply shaped_len in Sh. lia.
Qed.
Lemma even_len t : well_shaped t -> exists n, lenN t + 1 = 2 * n \/ lenN t = 0 /\ n = 0.
Proof. intros [->|(k & Sh)]; [exists 0; now right|]. exists (leaf_count k). left. now apply shaped_len. Qed.

Lemma add_slow L j t l t' : slow_growth L j t -> vadd t l = Ok t' -> slow_growth L (j + 1) t'.
Proof.
  intros (W & Cs) E. destruct (add_members t l t' W E) as (W' & li & LF & Hl & Ho).
  destruct (add_shape t l t' W E) as (k & t0 & li0 & LF0 & T0 & S0 & A). split; [exact W'|].
  assert (Li : li0 = li).
  { destruct LF as [F1 F2], LF0 as [F3 F4]. destruct (N.lt_trichotomy li0 li) as [H|[H|H]]; [now apply F2 in H|assumption|now apply F4 in H]. }
  subst li0. pose proof (lenN_same_height k t0 t' S0 (proj1 A)) as Len.
  destruct T0 as [->|[-> Full]].
  - destruct Cs as [H|(m & H1 & H2 & H3 & H4)]; [left; lia|]. right. exists (m + 1).
    assert (li = m). { destruct LF as [F1 F2]. destruct (N.lt_trichotomy li m) as [H|[H|H]]; [now apply H3 in H|assumption|]. apply F2 in H. rewrite H4 in H by lia. easy. }
    subst li. splits; try lia.
    + intros i Hi. destruct (N.eq_dec i m) as [->|]; [congruence|]. rewrite Ho by assumption. apply H3. lia.
    + intros i Hi. rewrite Ho by lia. apply H4. lia.
  - rewrite lenN_grown in Len.
    destruct (even_len t W) as (n & En).
    assert (Occ : forall i, i < n -> leaf_at t i <> None) by (intros i Hi; apply Full; lia).
    assert (Free : forall i, n <= i -> leaf_at t i = None) by (intros i Hi; apply beyond; [assumption|lia]).
    assert (li = n). { destruct LF as [F1 F2]. destruct (N.lt_trichotomy li n) as [H|[H|H]]; [now apply Occ in H|assumption|]. apply F2 in H. rewrite Free in H by lia. easy. }
    subst li. right. exists (n + 1).
    assert (2 * n <= L + 1 + 2 * j).
    { destruct Cs as [H|(m & H1 & H2 & H3 & H4)]; [lia|]. enough (n <= m) by lia.
      destruct (N.le_gt_cases n m) as [|Hm]; [assumption|]. specialize (H4 m ltac:(lia)). now apply Occ in Hm. }
    splits; try lia.
    + intros i Hi. destruct (N.eq_dec i n) as [->|]; [congruence|]. rewrite Ho by assumption. apply Occ. lia.
    + intros i Hi. rewrite Ho by lia. apply Free. lia.
Qed.
Lemma adds_slow L props : forall j t t', slow_growth L j t -> foldM addStep t props = Ok t' -> slow_growth L (j + lenN props) t'.
Proof.
  induction props as [|p r IH]; intros j t t' Sl E; [apply Ok_inj in E; subst; now rewrite N.add_0_r|].
  cbn [foldM] in E. apply rbind_ok in E. destruct E as (t1 & E1 & E).
  replace (j + lenN (p :: r)) with (j + 1 + lenN r) by (unfold lenN; cbn [length]; lia). apply (IH _ t1); [|exact E].
  unfold addStep in E1. destruct p; try (apply Ok_inj in E1; subst; now apply slow_more). eapply add_slow; eauto.
Qed.
Lemma truncated_len k (t t' : ratchetTree) : full k t -> truncated k t t' -> lenN t' <= lenN t.
Proof.
  intros [_ F] [[-> _]|(k' & Hk & [_ F'] & _)]; [unfold lenN; cbn; lia|]. rewrite F, F'. rewrite !node_leaf_count.
  pose proof (leaf_count_pos k'). enough (leaf_count k' <= leaf_count k) by lia. unfold leaf_count. apply pow2_le. lia.
Qed.
Theorem apply_growth t props senders t' : well_shaped t -> vapply t props senders = Ok t' ->
  well_shaped t' /\ lenN t' + 1 <= 2 * (lenN t + 1) + 4 * lenN props.
Proof.
  intros W H. rewrite vapply_eq in H. rinv.
  assert (W1 : well_shaped v /\ lenN v <= lenN t).
  { revert E. apply (foldM_inv _ (fun v => well_shaped v /\ lenN v <= lenN t)); [|split; [assumption|lia]]. intros s [i p] s' _ [Hs Hn] E. unfold updStep in E. cbn [fst snd] in E.
    destruct p; rinv; try (now subst). split; [eapply update_members; eauto|]. destruct (update_shape s _ _ s' Hs E) as (k & S1 & _ & S2).
    rewrite <- (lenN_same_height k s s' S1 S2). exact Hn. }
  assert (W2 : well_shaped v0 /\ lenN v0 <= lenN t).
  { revert E0. apply (foldM_inv _ (fun v => well_shaped v /\ lenN v <= lenN t)); [|assumption]. intros s p s' _ [Hs Hn] E0. unfold remStep in E0.
    destruct p; rinv; try (now subst). split; [eapply remove_members; eauto|]. destruct (remove_shape s _ s' Hs E0) as (k & t1 & S1 & R & S2 & T & _).
    pose proof (lenN_same_height k s t1 S1 S2). pose proof (truncated_len k t1 s' (shaped_full _ _ S2) T). lia. }
  destruct W2 as [W2 L2]. destruct (adds_slow (lenN t) props 0 v0 t') as (W3 & [Hl|(m & Hl)]); auto; [now split; [|left]| |]; (split; [assumption|lia]).
Qed.

(** ** Counting *)
Lemma free_step {A B} (r : res A) (k : A -> counted B) b : (forall x, r = Ok x -> snd (k x) <= b) -> snd (c_bind (costs 0 r) k) <= b.
Proof. intros H. replace b with (0 + b) by lia. apply snd_bind; [apply N.le_refl|exact H]. Qed.
Lemma paid_step {A B} c (m : counted A) (k : A -> counted B) b : snd m <= c -> c <= b -> (forall x, fst m = Ok x -> snd (k x) <= b - c) -> snd (c_bind m k) <= b.
Proof. intros H1 H2 H3. replace b with (c + (b - c)) by lia. now apply snd_bind. Qed.
Ltac free := apply free_step; let x := fresh "x" in intros x ?; step_in x.
Ltac pay c := apply (paid_step c); [|try lia|let x := fresh "x" in intros x ?; step_in x].
Ltac pay1 := pay 1; [apply N.le_refl|].
Ltac none := first [apply N.le_0_l | cbn [costs snd]; lia].

Section WithCrypto.
Context {C : crypto}.

Lemma subtree_fits k p : fits k -> in_tree k p -> (val p + 1) * 2 ^ (N.of_nat k - lenN p + 1) <= 2 ^ 32.
Proof.
  intros Hk Hp. pose proof (in_tree_inTree k p Hp) as [_ Hv]. unfold fits in Hk. unfold in_tree in Hp.
  apply N.le_trans with (2 ^ (N.of_nat k - (N.of_nat k - lenN p)) * 2 ^ (N.of_nat k - lenN p + 1)); [apply N.mul_le_mono_r; lia|].
  rewrite <- N.pow_add_r. apply pow2_le. unfold lenN. lia.
Qed.
Lemma subtree_work cs t ex k p : fits k -> in_tree k p -> snd (countTreeHash cs t (number k p) ex) <= 2 ^ (N.of_nat k - lenN p + 1) - 1.
Proof. intros Hk Hp. rewrite number_nd by assumption. apply hash_work. now apply subtree_fits. Qed.
Lemma full_len k (t : ratchetTree) : full k t -> lenN t + 1 = 2 * leaf_count k.
Proof. intros [_ H]. rewrite H, node_leaf_count. pose proof (leaf_count_pos k). lia. Qed.
Lemma root_work cs k t : full k t -> snd (countRootTreeHash cs t) <= lenN t.
Proof.
  intros F. pose proof F as [Hk Hn]. unfold countRootTreeHash. rewrite (numLeaves_tree t k Hk Hn), path_root by assumption.
  pose proof (subtree_work cs t [] k [] Hk ltac:(unfold in_tree; cbn; lia)) as H. change (lenN (@nil bool)) with 0 in H.
  rewrite N.sub_0_r in H. pose proof (full_len k t F) as E. unfold leaf_count in E. rewrite pow2_S in H. lia.
Qed.
Lemma any_root_work cs t : well_shaped t -> snd (countRootTreeHash cs t) <= lenN t.
Proof. intros [->|(k & Sh)]; [unfold countRootTreeHash; none|]. apply (root_work cs k). now apply shaped_full. Qed.

(** *** Parent hashes of an update path *)
Definition steps_up (k : nat) (l : list path) : N := fold_right (fun a s => 2 ^ (N.of_nat k - lenN a) + s) 0 l.
Lemma steps_up_app k l1 l2 : steps_up k (l1 ++ l2) = steps_up k l1 + steps_up k l2.
Proof. induction l1 as [|a l IH]; cbn [app steps_up fold_right]; [reflexivity|]. fold (steps_up k (l ++ l2)) (steps_up k l). lia. Qed.
Lemma steps_up_rev k l : steps_up k (rev l) = steps_up k l.
Proof. induction l as [|a l IH]; [reflexivity|]. cbn [rev]. rewrite steps_up_app, IH. cbn [steps_up fold_right]. fold (steps_up k l). lia. Qed.
Lemma filtered_steps k t p : in_tree k p -> steps_up k (map fst (filtered k t p)) + 2 ^ (N.of_nat k + 1 - lenN p) <= 2 ^ (N.of_nat k + 1).
Proof.
  induction p as [|b q IH] using rev_ind; intros Hp; [rewrite filtered_nil; change (lenN (@nil bool)) with 0; rewrite N.sub_0_r; apply N.le_refl|].
  rewrite filtered_snoc, map_app, steps_up_app. unfold in_tree in Hp. rewrite app_length in Hp. cbn [length] in Hp.
  specialize (IH ltac:(unfold in_tree; lia)).
  replace (N.of_nat k + 1 - lenN (q ++ [b])) with (N.of_nat k - lenN q) by (unfold lenN; rewrite app_length; cbn [length]; lia).
  replace (N.of_nat k + 1 - lenN q) with (N.of_nat k - lenN q + 1) in IH by (unfold lenN; lia). rewrite (pow2_S (N.of_nat k - lenN q)) in IH.
  destruct (blank_below _ _ _ _); [change (steps_up k (map fst [])) with 0|change (steps_up k (map fst [(q, q ++ [negb b])])) with (2 ^ (N.of_nat k - lenN q) + 0)];
    change (@map (path * path)) with (@map (list bool * list bool)) in *; lia.
Qed.
Lemma merge_hashes_work cs s dp k : fits k -> forall L t prev, (forall a, In a L -> (length a < k)%nat) ->
  snd (countMergeParentHashes cs s dp t prev (map (number k) L)) <= steps_up k L.
Proof.
  intros Hk. induction L as [|a L IH]; intros t prev H; [none|]. cbn [map countMergeParentHashes].
  change (steps_up k (a :: L)) with (2 ^ (N.of_nat k - lenN a) + steps_up k L). pose proof (H a (or_introl eq_refl)) as Ha.
  free. destruct x as [[?|p]|]; try none. rewrite path_children by assumption. cbv zeta.
  assert (Cs : forall b, snd (countTreeHash cs t (number k (a ++ [b])) []) <= 2 ^ (N.of_nat k - lenN a) - 1).
  { intros b. pose proof (subtree_work cs t [] k (a ++ [b]) Hk) as W. unfold in_tree, lenN in *. rewrite app_length in W. cbn [length] in W.
    replace (N.of_nat k - N.of_nat (length a + 1) + 1) with (N.of_nat k - N.of_nat (length a)) in W by lia. apply W. lia. }
  pose proof (pow2_pos (N.of_nat k - lenN a)).
  apply (paid_step (2 ^ (N.of_nat k - lenN a) - 1)); [destruct (_ || _)%bool; apply Cs|lia|]. intros th _.
  free. apply (paid_step 1); [apply N.le_refl|lia|]. intros hh _.
  eapply N.le_trans; [apply IH; intros; apply H; now right|lia].
Qed.
Lemma merge_work cs k t li path : shaped k t -> designated li < leaf_count k -> snd (countMergeUpdatePath cs t li path) <= lenN t + 1.
Proof.
  intros Sh Hli. pose proof (shaped_full _ _ Sh) as F. pose proof F as [Hk _]. unfold countMergeUpdatePath. cbv zeta.
  rewrite nodeIndexOf_designated, (leaf_directPath k) by assumption. set (p := leafPath k (designated li)).
  rewrite <- (leafPath_number k (designated li) Hli). fold p. assert (Hp : in_tree k p) by apply leafPath_in.
  pose proof (shaped_len k t Sh) as El. unfold leaf_count in El. rewrite El.
  apply free_step. intros dp Ed. apply Ok_inj in Ed. subst dp.
  destruct (blank_path k t p F Hp) as (t1 & E1 & F1 & Ab & Oth). rewrite E1. apply free_step. intros t1' Et. apply Ok_inj in Et. subst t1'.
  assert (Sh1 : shaped k t1).
  { split; auto. intros q n Hq A. destruct (above_dec q p) as [B|B]; [rewrite Ab in A by auto; discriminate|]. rewrite Oth in A by auto. now apply Sh. }
  rewrite (filteredDirectPath_ok k t1 p Sh1 Hp). apply free_step. intros fdp Ef. apply Ok_inj in Ef. subst fdp.
  do 2 free. rewrite <- map_rev. pose proof (filtered_steps k t1 p Hp) as Hs. rewrite <- steps_up_rev in Hs. rewrite N.add_1_r in Hs. rewrite N.pow_succ_r' in Hs.
  apply (paid_step (steps_up k (rev (map fst (filtered k t1 p))))); [apply merge_hashes_work; [assumption|]|lia|].
  - intros a Ia. apply in_rev in Ia. apply filtered_above in Ia. apply above_length in Ia. unfold in_tree in Hp. lia.
  - intros [t3 prev] _. free. none.
Qed.
Lemma mergeH_work cs k h t li path : shaped k (deref h t) -> designated li < leaf_count k -> snd (countMergeUpdatePathH cs h t li path) <= lenN t + 1.
Proof.
  intros Sh Hli. unfold countMergeUpdatePathH. apply (paid_step (lenN t + 1)); [rewrite <- (lenN_deref h t); now apply (merge_work cs k)|lia|].
  intros v _. free. none.
Qed.

(** *** Path secrets *)
Lemma nodePriv_work cs s p : snd (countNodePriv cs s p) <= 2.
Proof. unfold countNodePriv. pay1. pay1. none. Qed.
Lemma derive_work cs t : forall path priv s, snd (countDerivePath cs t priv s path) <= 3 * lenN path.
Proof.
  induction path as [|ni r IH]; intros priv s; [none|]. cbn [countDerivePath].
  replace (3 * lenN (ni :: r)) with (3 + 3 * lenN r) by (unfold lenN; cbn [length]; lia).
  pay1. free. destruct x0 as [n|]; [|none]. pay 2; [apply nodePriv_work|]. free. eapply N.le_trans; [apply IH|lia].
Qed.
Lemma filtered_len_loop t : forall fuel x r, filteredDirectPathLoop fuel t x = Ok r -> (length r <= fuel)%nat.
Proof.
  induction fuel as [|f IH]; intros x r; cbn [filteredDirectPathLoop]; destruct (parent _ x) as [p|]; intros H; try (apply Ok_inj in H; subst; cbn; lia);
    (destruct (sibling _ x) as [s|]; [|discriminate]); rinv; try discriminate. subst. specialize (IH _ _ E0). destruct v; cbn [length]; lia.
Qed.
Lemma filtered_len t x r : filteredDirectPath t x = Ok r -> lenN r <= 33.
Proof. intros H. apply filtered_len_loop in H. unfold lenN. lia. Qed.
Lemma decrypt_work cs t ctx a b path priv : snd (countDecryptPathSecrets cs t ctx a b path priv) <= 103.
Proof.
  unfold countDecryptPathSecrets. cbv zeta. apply free_step. intros fdp Ef. apply filtered_len in Ef. free.
  destruct (position _ _) as [i|]; [|none]. free.
  match goal with |- context [if ?c then left ?x else right ?x] => destruct (if c then left x else right x) as [cn|] end; [|none].
  do 3 free. match goal with |- context [match ?x with Some _ => _ | None => _ end] => destruct x as [[ri np]|]; [|none] end.
  free. pay1. free. match goal with |- context [match ?x with Some _ => _ | None => _ end] => destruct x as [n|]; [|none] end.
  pay 2; [apply nodePriv_work|]. free. apply (paid_step 99); [|lia|].
  - eapply N.le_trans; [apply derive_work|]. assert (lenN (skipn (S i) fdp) <= lenN fdp) by (unfold lenN; rewrite skipn_length; lia). lia.
  - intros [priv2 ps'] _. apply (paid_step 1); [apply N.le_refl|lia|]. intros; none.
Qed.

(** *** Commits *)
Lemma path_work g li path h t priv now : proper h t -> well_shaped (deref h t) -> snd (countPath g li path h t priv now) <= 2 * lenN t + 105.
Proof.
  intros P W. unfold countPath. cbv zeta. free. apply free_step. intros senderNode Es. free. destruct senderNode as [sn|]; [|none].
  apply getLeaf_some in Es. rewrite nodeIndexOf_designated in Es.
  assert (Hk : exists k, shaped k (deref h t) /\ designated li < leaf_count k).
  { destruct W as [E|(k & Sh)]; [rewrite E in Es; destruct (N.to_nat _); discriminate|]. exists k. split; [assumption|].
    assert (N.to_nat (2 * designated li) < length (deref h t))%nat by (apply nth_error_Some; congruence). apply shaped_len in Sh. unfold lenN in Sh. lia. }
  destruct Hk as (k & Sh & Hli). free. pay1. free. pay (lenN t + 1); [now apply (mergeH_work _ k)|].
  rewrite erase_mergeH in *.
  match goal with E : mergeUpdatePathH _ _ _ _ _ = Ok (?h1, ?t1) |- _ =>
    destruct (mergeH_sound _ k h t li path h1 t1 P Sh E) as [_ (F & _)]; assert (El : lenN t1 = lenN t);
      [rewrite <- (lenN_deref h1 t1), <- (lenN_deref h t); apply full_len in F; apply shaped_len in Sh; lia|];
    pose proof (root_work (gc_cipherSuite (gr_context g)) k _ F) as R; rewrite lenN_deref, El in R end.
  pay (lenN t); [exact R|]. pay 103; [apply decrypt_work|]. none.
Qed.
Lemma epoch_work g ac th s : snd (countEpoch g ac th s [] []) <= 7.
Proof. unfold countEpoch. cbv zeta. pay1. pay1. pay 2; [none|]. apply free_step. intros. pay 2; [none|]. pay1. none. Qed.
Lemma finish_work g ac c h t now : proper h t -> well_shaped (deref h t) -> snd (countFinish g ac c h t [] [] now) <= 2 * lenN t + 112.
Proof.
  intros P W. unfold countFinish. cbv zeta. do 2 free. pay (2 * lenN t + 105).
  - destruct (c_path c) as [path|]; [now apply path_work|]. pay (lenN t); [|none]. rewrite <- (lenN_deref h t). now apply any_root_work.
  - pay 7; [apply epoch_work|]. none.
Qed.
Lemma adds_work ctx : forall l, snd (countAdds ctx l) <= lenN l.
Proof.
  induction l as [|p r IH]; [none|]. cbn [countAdds]. replace (lenN (p :: r)) with (1 + lenN r) by (unfold lenN; cbn [length]; lia).
  apply snd_bind; [destruct p; none|]. intros _ _. exact IH.
Qed.
Lemma check_work g li c : snd (countCheck g li c) <= lenN (c_proposals c) /\
  forall ps ss, fst (countCheck g li c) = Ok (ps, ss) -> lenN ps = lenN (c_proposals c).
Proof.
  assert (Len : forall ps, resolveProposals (c_proposals c) li (gr_pending g) = Ok ps -> lenN (map fst ps) = lenN (c_proposals c)).
  { intros ps E. apply resolveProposals_spec in E. assert (length (c_proposals c) = length ps) by (clear -E; induction E; cbn; lia). unfold lenN. rewrite map_length. lia. }
  split.
  - unfold countCheck. apply free_step. intros ps E. cbv zeta. free. pay (lenN (map fst ps)); [apply adds_work|rewrite (Len ps E); lia|]. free. none.
  - intros ps ss. rewrite erase_check. unfold checkCommit. intros H. apply rbind_ok in H. destruct H as (l & E & H). cbv zeta in H. rinv. inversion H. subst. now apply Len.
Qed.
Lemma commit_work g ac now : proper (gr_heap g) (gr_tree g) -> well_shaped (gr_value g) ->
  snd (countCommit g ac [] [] now) <= 4 * lenN (gr_tree g) + 114 + 9 * match fc_body (ac_content ac) with BCommit c => lenN (c_proposals c) | _ => 0 end.
Proof.
  intros P W. unfold countCommit. destruct (fc_body (ac_content ac)) as [?|?|c]; try none. cbv zeta.
  destruct (check_work g (sender_leafIndex (fc_sender (ac_content ac))) c) as [H1 H2].
  destruct (fst (countCheck _ _ _)) as [[ps ss]|?|?|]; cbn [snd]; try lia. specialize (H2 ps ss eq_refl).
  destruct (applyH_value (gr_heap g) (gr_tree g) ps ss P) as [V Pr].
  destruct (applyH _ _ _ _) as [[h t]|?|?|]; cbn [snd]; try lia. cbn [rmap] in V. symmetry in V. change (value (h, t)) with (deref h t) in V.
  destruct (apply_growth _ ps ss (deref h t) W V) as [W' G]. change (gr_value g) with (deref (gr_heap g) (gr_tree g)) in G. rewrite !lenN_deref in G.
  pose proof (finish_work g ac c h t now (Pr h t eq_refl) W'). lia.
Qed.

(** *** Opening messages *)
Lemma public_work g m : snd (countPublic g m) <= 3.
Proof.
  unfold countPublic. cbv zeta. do 2 free. destruct (fc_sender _) as [li|?| |]; try none. free.
  match goal with |- context [match ?x with Some _ => _ | None => _ end] => destruct x as [sn|]; [|none] end.
  pay1. free. pay1. pay1. free. none.
Qed.
Lemma children_work fuel cs : forall t l i, (i + 1) * 2 ^ (l + 1) <= 2 ^ 32 -> snd (countChildren fuel cs t (nd l i)) <= 2 ^ (l + 1) - 2.
Proof.
  induction fuel as [|f IH]; intros t l i H; cbn [countChildren]; (pose proof (pow2_pos (l + 1)); pose proof (pow2_S l); pose proof (pow2_pos l)).
  - destruct (children (nd l i)) as [[? ?]|]; none.
  - destruct (children (nd l i)) as [[a b]|] eqn:Ec; [|none].
    assert (B : nd l i < 2 ^ 32 - 1) by (unfold nd; lia).
    destruct (N.eq_dec l 0) as [->|Hl]. { rewrite nd_0 in *. pose proof (children_leaf i ltac:(lia)) as [E _]. rewrite nd_0 in E. congruence. }
    destruct (N.le_exists_sub 1 l ltac:(lia)) as (m & -> & _). rewrite children_nd in Ec by exact B. injection Ec as <- <-.
    pose proof (pow2_S m). pose proof (pow2_pos m).
    assert (Hl1 : forall t, snd (countChildren f cs t (nd m (2 * i))) <= 2 ^ (m + 1) - 2) by (intros; apply IH; nia).
    assert (Hl2 : forall t, snd (countChildren f cs t (nd m (2 * i + 1))) <= 2 ^ (m + 1) - 2) by (intros; apply IH; nia).
    do 2 free. pay1. pay1. do 2 free. apply (paid_step (2 ^ (m + 1) - 2)); [apply Hl1|lia|]. intros t3 _. eapply N.le_trans; [apply Hl2|lia].
Qed.
Lemma secretTree_work cs k {A} (t : list (option A)) s : full k t -> snd (countSecretTree cs (numLeaves t) s) <= lenN t - 1.
Proof.
  intros [Hk Hn]. unfold countSecretTree. rewrite (numLeaves_tree t k Hk Hn), path_root by assumption. free.
  rewrite number_nd by (unfold in_tree; cbn; lia). change (lenN (@nil bool)) with 0. rewrite N.sub_0_r. change (val []) with 0.
  eapply N.le_trans; [apply children_work|].
  - rewrite N.mul_1_l. apply pow2_le. unfold fits in Hk. lia.
  - rewrite Hn, node_leaf_count. unfold leaf_count. rewrite pow2_S. pose proof (pow2_pos (N.of_nat k)). lia.
Qed.
Lemma any_secretTree_work cs h t s : well_shaped (deref h t) -> snd (countSecretTree cs (numLeaves t) s) <= lenN t.
Proof.
  intros W. rewrite <- (numLeaves_deref h t), <- (lenN_deref h t). destruct W as [->|(k & Sh)]; [unfold countSecretTree; none|].
  eapply N.le_trans; [apply (secretTree_work cs k); now apply shaped_full|lia].
Qed.
Lemma forward_work cs : forall steps s, snd (countForward cs s steps) <= stepsDone cs s steps.
Proof.
  induction steps as [|k IH]; intros s; [none|]. cbn [countForward stepsDone].
  unfold c_bind, costs. cbn [fst snd]. destruct (deriveNext cs s) as [s'|?|?|]; cbn [snd]; try none. specialize (IH s'). lia.
Qed.
Lemma erase_secretTree cs n s : fst (countSecretTree cs n s) = deriveSecretTree cs n s.
Proof. unfold countSecretTree, deriveSecretTree. erase1. apply erase_children. Qed.
Lemma secret_work g li ct gen : well_shaped (gr_value g) -> snd (countSecret g li ct gen) <= lenN (gr_tree g) + 2 + ratchetWork g li ct gen.
Proof.
  intros W. unfold countSecret, ratchetWork. cbv zeta. apply (paid_step 1); [none|lia|]. cbn [costs fst]. intros es E. rewrite E. cbn [rbind].
  apply (paid_step (lenN (gr_tree g))); [now apply (any_secretTree_work _ (gr_heap g))|lia|]. intros st Est. rewrite erase_secretTree in Est. rewrite Est. cbn [rbind].
  apply free_step. intros label El. rewrite El. cbn [rbind]. apply (paid_step 1); [none|lia|]. cbn [costs fst]. intros sec Es. rewrite Es.
  eapply N.le_trans; [apply forward_work|lia].
Qed.
Lemma private_work g m : well_shaped (gr_value g) -> snd (countPrivate g m) <= lenN (gr_tree g) + 10 + privateWork g m.
Proof.
  intros W. unfold countPrivate, privateWork. cbv zeta. apply free_step. intros u1 E1. rewrite E1. cbn [rbind]. apply free_step. intros u2 E2. rewrite E2. cbn [rbind].
  apply (paid_step 1); [none|lia|]. cbn [costs fst]. intros sds E3. rewrite E3. cbn [rbind]. apply (paid_step 3); [none|lia|]. cbn [costs fst]. intros sd E4. rewrite E4.
  apply (paid_step (lenN (gr_tree g) + 2 + ratchetWork g (sd_leafIndex sd) (privm_contentType m) (sd_generation sd))); [now apply secret_work|lia|]. intros sec _.
  apply (paid_step 3); [none|lia|]. intros pc _. free.
  match goal with |- context [match ?x with Some _ => _ | None => _ end] => destruct x as [sn|]; [|none] end.
  apply (paid_step 1); [none|lia|]. intros ok _. free. none.
Qed.

(** ** How many proposals a message holds *)
(** [f] of what is read is at most the number of bytes. *)
Definition sized {A} (f : A -> N) (r : reader A) : Prop := forall s a rest, r s = (Ok a, rest) -> f a <= lenN s.
Lemma sized_bind {A B} (f : B -> N) (r : reader A) (k : A -> reader B) : SAFE0 r -> (forall a, sized f (k a)) -> sized f (x <- r ;; k x).
Proof.
  intros Sf Hk s b rest. unfold rd_bind. specialize (Sf s). destruct (r s) as [[a|?|?|] s'] eqn:E; try discriminate.
  intros H. apply Hk in H. unfold lenN in *. lia.
Qed.
Lemma sized_first {A B} (f : A -> N) (g : B -> N) (r : reader A) (k : A -> reader B) : sized f r ->
  (forall a s b rest, k a s = (Ok b, rest) -> g b = f a) -> sized g (x <- r ;; k x).
Proof.
  intros H1 H2 s b rest. unfold rd_bind. destruct (r s) as [[a|?|?|] s'] eqn:E; try discriminate. intros H. rewrite (H2 _ _ _ _ H). eapply H1; eauto.
Qed.
Lemma readVectorLoop_len {A} (r : reader A) : forall fuel s l, readVectorLoop fuel r s = Ok l -> (length l <= fuel)%nat.
Proof.
  induction fuel as [|n IH]; intros s l; cbn [readVectorLoop]; (destruct s as [|b s]; [intros H; apply Ok_inj in H; subst; cbn; lia|]); [discriminate|].
  destruct (r (b :: s)) as [[a|?|?|] s']; try discriminate. destruct (readVectorLoop n r s') as [l'|?|?|] eqn:E; cbn [rmap]; try discriminate.
  intros H. apply Ok_inj in H. subst. cbn [length]. apply IH in E. lia.
Qed.
Lemma sized_vector {A} (r : reader A) : sized lenN (readVector r).
Proof.
  intros s l rest. unfold readVector, rd_bind. destruct (readVarint s) as [[n|?|?|] s1] eqn:E1; try discriminate.
  pose proof (readVarint_SAFE s) as S1. rewrite E1 in S1.
  destruct (readN n s1) as [[v|?|?|] s2] eqn:E2; try discriminate. apply readN_inv in E2. intros H. injection H as H _. apply readVectorLoop_len in H.
  destruct E2 as [E2 _]. apply (f_equal (@length _)) in E2. rewrite app_length in E2. unfold lenN. lia.
Qed.
Lemma sized_opaque : sized lenN readOpaqueVec.
Proof.
  unfold readOpaqueVec. apply sized_bind; [apply SAFE_SAFE0, readVarint_SAFE|]. intros n s v rest H. apply readN_inv in H. destruct H as [-> _]. unfold lenN. rewrite app_length. lia.
Qed.
Lemma sized_ret {A} (f : A -> N) a : f a = 0 -> sized f (rd_ret a).
Proof. intros H s b rest E. unfold rd_ret in E. injection E as <- _. rewrite H. lia. Qed.
Definition listed (b : body) : N := match b with BCommit c => lenN (c_proposals c) | _ => 0 end.
Ltac rdinv H := repeat match type of H with
  | context [rd_bind ?r ?k ?s] => unfold rd_bind in H at 1; let E := fresh in destruct (r s) as [[?|?|?|] ?] eqn:E; try discriminate H
  end.
Lemma sized_commit : sized (fun c => lenN (c_proposals c)) getCommit.
Proof.
  apply (sized_first lenN); [apply sized_vector|]. intros a s b rest H. rdinv H. unfold rd_ret in H. injection H as <- _. reflexivity.
Qed.
Lemma sized_body ct : sized listed (getBody ct).
Proof.
  unfold getBody. destruct (ct =? 1); [|destruct (ct =? 2); [|destruct (ct =? 3)]].
  - intros s b rest H. rdinv H. injection H as <- _. apply N.le_0_l.
  - intros s b rest H. rdinv H. injection H as <- _. apply N.le_0_l.
  - apply (sized_first (fun c => lenN (c_proposals c))); [apply sized_commit|]. intros c s b rest H. injection H as <- _. reflexivity.
  - intros s b rest H. discriminate.
Qed.
Lemma sized_framed : sized (fun c => listed (fc_body c)) getFramedContent.
Proof.
  unfold getFramedContent.
  apply sized_bind; [apply SAFE_SAFE0, readOpaqueVec_SAFE|intros ?]. apply sized_bind; [apply SAFE_SAFE0, readUint64_SAFE|intros ?].
  apply sized_bind; [apply SAFE_SAFE0, sender_SAFE|intros ?]. apply sized_bind; [apply SAFE_SAFE0, readOpaqueVec_SAFE|intros ?].
  apply sized_bind; [apply SAFE_SAFE0, contentType_SAFE|intros ?].
  apply (sized_first listed); [apply sized_body|]. intros x s b rest H. injection H as <- _. reflexivity.
Qed.
Lemma sized_public : sized (fun m => listed (fc_body (pubm_content m))) getPublicMessage.
Proof.
  apply (sized_first (fun c => listed (fc_body c))); [apply sized_framed|]. intros x s b rest H. rdinv H. injection H as <- _. reflexivity.
Qed.
Lemma sized_private : sized (fun m => lenN (privm_ciphertext m)) getPrivateMessage.
Proof.
  unfold getPrivateMessage.
  apply sized_bind; [apply SAFE_SAFE0, readOpaqueVec_SAFE|intros ?]. apply sized_bind; [apply SAFE_SAFE0, readUint64_SAFE|intros ?].
  apply sized_bind; [apply SAFE_SAFE0, contentType_SAFE|intros ?].
  do 2 (apply sized_bind; [apply SAFE_SAFE0, readOpaqueVec_SAFE|intros ?]).
  apply (sized_first lenN); [apply sized_opaque|]. intros x s b rest H. injection H as <- _. reflexivity.
Qed.
Lemma sized_privateContent ct : sized (fun c => listed (pmc_body c)) (getPrivateMessageContent ct).
Proof.
  apply (sized_first listed); [apply sized_body|]. intros x s b rest H. rdinv H. injection H as <- _. reflexivity.
Qed.
Definition holds (m : mlsMessage) : N :=
  match m with MPublic p => listed (fc_body (pubm_content p)) | MPrivate p => lenN (privm_ciphertext p) | _ => 0 end.
Lemma sized_message : sized holds getMlsMessage.
Proof.
  unfold getMlsMessage. apply sized_bind; [apply SAFE_SAFE0, readUint16_SAFE|intros v].
  destruct (negb (v =? 1)); [intros ? ? ? H; discriminate|]. apply sized_bind; [apply SAFE_SAFE0, getTag2_SAFE|intros wf].
  destruct (wf =? 1); [|destruct (wf =? 2); [|destruct (wf =? 3); [|destruct (wf =? 4); [|destruct (wf =? 5)]]]].
  - apply (sized_first (fun m => listed (fc_body (pubm_content m)))); [apply sized_public|]. intros x s b rest H. injection H as <- _. reflexivity.
  - apply (sized_first (fun m => lenN (privm_ciphertext m))); [apply sized_private|]. intros x s b rest H. injection H as <- _. reflexivity.
  - intros s b rest H. rdinv H. injection H as <- _. apply N.le_0_l.
  - intros s b rest H. rdinv H. injection H as <- _. apply N.le_0_l.
  - intros s b rest H. rdinv H. injection H as <- _. apply N.le_0_l.
  - intros ? ? ? H; discriminate.
Qed.
Lemma message_holds raw m : unmarshal getMlsMessage raw = Ok m -> holds m <= lenN raw.
Proof.
  unfold unmarshal. destruct (getMlsMessage raw) as [[a|?|?|] rest] eqn:E; try discriminate. destruct rest; [|discriminate]. intros H. apply Ok_inj in H. subst a.
  eapply sized_message; eauto.
Qed.
Lemma content_holds cs m s r pc : opens_no_longer C -> decryptContent cs m s r = Ok pc -> listed (pmc_body pc) <= lenN (privm_ciphertext m).
Proof.
  intros NL. unfold decryptContent. intros H. apply rbind_ok in H. destruct H as ([key nonce] & _ & H). apply rbind_ok in H. destruct H as (aad & _ & H).
  apply rbind_ok in H. destruct H as (raw & Eo & H). destruct (getPrivateMessageContent (privm_contentType m) raw) as [x rest] eqn:E.
  apply rbind_ok in H. destruct H as (c & -> & H). rinv. subst c. apply sized_privateContent in E.
  unfold aeadOpen in Eo. apply rbind_ok in Eo. destruct Eo as (d & _ & Eo). destruct (negb _); [discriminate|]. destruct (negb _); [discriminate|].
  destruct (cr_aeadOpen _ _ _ _ _ _) as [pt|] eqn:Ep; [|discriminate]. apply Ok_inj in Eo. subst pt. apply NL in Ep. lia.
Qed.
Lemma public_content g m ac : fst (countPublic g m) = Ok ac -> ac_content ac = pubm_content m.
Proof.
  rewrite erase_public. unfold verifyPublicMessage. cbv zeta. intros H. rinv. destruct (fc_sender _); try discriminate. rinv.
  match goal with H : match ?x with Some _ => _ | None => _ end = Ok _ |- _ => destruct x as [sn|]; [|discriminate] end. rinv. subst ac. reflexivity.
Qed.
Lemma private_content g m ac : opens_no_longer C -> fst (countPrivate g m) = Ok ac -> listed (fc_body (ac_content ac)) <= lenN (privm_ciphertext m).
Proof.
  intros NL. rewrite erase_private. unfold openPrivateMessage. cbv zeta. intros H.
  apply rbind_ok in H. destruct H as (u1 & _ & H). apply rbind_ok in H. destruct H as (u2 & _ & H). apply rbind_ok in H. destruct H as (u3 & _ & H).
  apply rbind_ok in H. destruct H as (sd & _ & H). apply rbind_ok in H. destruct H as (sec & _ & H). apply rbind_ok in H. destruct H as (pc & Ed & H).
  apply rbind_ok in H. destruct H as (sn & _ & H). destruct sn as [sn|]; [|discriminate].
  apply rbind_ok in H. destruct H as (u4 & _ & H). apply rbind_ok in H. destruct H as (u5 & _ & H). apply Ok_inj in H. subst ac.
  cbn. now apply content_holds in Ed.
Qed.

(** ** Messages *)
Theorem message_work g raw now : opens_no_longer C -> sane g ->
  snd (countMessage g raw now) <= 5 * lenN (gr_tree g) + 9 * lenN raw + 124 + messageWork g raw.
Proof.
  intros NL Sn. pose proof (proj1 (sane_consistent g Sn)) as P. pose proof (sane_shape g Sn) as W.
  unfold countMessage, messageWork. pose proof (message_holds raw) as Hh.
  destruct (unmarshal getMlsMessage raw) as [[m|m|m|m|m]|?|?|]; try none; cbv zeta; specialize (Hh _ eq_refl); cbn [holds] in Hh.
  - pose proof (public_work g m) as Wp. pose proof (public_content g m) as Hc.
    destruct (fst (countPublic g m)) as [ac|?|?|]; cbn [snd]; try lia. specialize (Hc ac eq_refl). rewrite <- Hc in Hh.
    pose proof (commit_work g ac now P W) as Wc. destruct (fc_body (ac_content ac)) eqn:B; unfold countProposal; cbn [snd listed] in *; lia.
  - pose proof (private_work g m W) as Wp. pose proof (fun ac => private_content g m ac NL) as Hc.
    destruct (fst (countPrivate g m)) as [ac|?|?|]; cbn [snd]; try lia. specialize (Hc ac eq_refl).
    pose proof (commit_work g ac now P W) as Wc. destruct (fc_body (ac_content ac)) eqn:B; unfold noDataCounted, countProposal; cbn [snd listed] in *; lia.
Qed.

(** ** How large the tree becomes *)
Lemma commit_growth g ac now g' r : sane g -> processCommit g ac [] [] now = (g', r) ->
  lenN (gr_tree g') + 1 <= 2 * (lenN (gr_tree g) + 1) + 4 * listed (fc_body (ac_content ac)).
Proof.
  intros Sn. unfold processCommit. destruct (fc_body (ac_content ac)) as [?|?|c]; try (intros H; assert (g' = g) as -> by congruence; lia). cbn [listed].
  destruct (checkCommit _ _ _) as [[ps ss]|?|?|] eqn:Ec; try (intros H; assert (g' = g) as -> by congruence; lia).
  pose proof (proj2 (check_work g _ c) ps ss (eq_trans (erase_check _ _ _) Ec)) as Hp. rewrite <- Hp.
  destruct (applyH_value (gr_heap g) (gr_tree g) ps ss (proj1 (sane_consistent g Sn))) as [V Pr].
  destruct (applyH _ _ _ _) as [[h t]|?|?|] eqn:Ea; try (intros H; assert (g' = g) as -> by congruence; lia).
  cbn [rmap] in V. symmetry in V. destruct (apply_growth _ ps ss (deref h t) (sane_shape g Sn) V) as [_ G]. rewrite lenN_deref in G.
  change (gr_value g) with (deref (gr_heap g) (gr_tree g)) in G. rewrite lenN_deref in G.
  destruct (finishCommit _ _ _ _ _ _ _ _) as [g1|?|?|] eqn:Ef; intros H; try (assert (g' = g) as -> by congruence; lia);
    [assert (g1 = g') by congruence; subst g1; clear H|assert (g' = withHeap g h) as -> by congruence; cbn [withHeap gr_tree]; lia].
  unfold finishCommit in Ef. cbv zeta in Ef. apply rbind_ok in Ef. destruct Ef as (priv & _ & Ef). apply rbind_ok in Ef. destruct Ef as (nh & _ & Ef).
  apply rbind_ok in Ef. destruct Ef as ([[[[h1 t1] th] cst] priv1] & Epath & Ef). apply rbind_ok in Ef. destruct Ef as ([[[[ctx interim] psk] es] ini] & _ & Ef). apply Ok_inj in Ef. subst g'.
  cbn [gr_tree]. enough (lenN t1 = lenN t) by lia. destruct (c_path c) as [path|].
  - apply processPath_inv in Epath. destruct Epath as [Em _]. apply mergeH_length in Em. unfold lenN. lia.
  - apply rbind_ok in Epath. destruct Epath as (th' & _ & Epath). apply Ok_inj in Epath. now inversion Epath.
Qed.
Theorem message_growth g raw now g' r : opens_no_longer C -> sane g -> unmarshalAndProcessMessage g raw now = (g', r) ->
  lenN (gr_tree g') + 1 <= 2 * (lenN (gr_tree g) + 1) + 4 * lenN raw.
Proof.
  intros NL Sn. unfold unmarshalAndProcessMessage. pose proof (message_holds raw) as Hh.
  destruct (unmarshal getMlsMessage raw) as [[m|m|m|m|m]|?|?|]; try (intros H; assert (g' = g) as -> by congruence; lia); specialize (Hh _ eq_refl); cbn [holds] in Hh.
  - unfold processPublicMessage. pose proof (public_content g m) as Hc. rewrite erase_public in Hc.
    destruct (verifyPublicMessage g m) as [ac|?|?|]; try (intros H; unfold noData in H; cbn [fst snd] in H; assert (g' = g) as -> by congruence; lia). specialize (Hc ac eq_refl). rewrite <- Hc in Hh.
    destruct (fc_body (ac_content ac)) as [d|p|c] eqn:B; unfold noData; intros H.
    + cbn [fst snd] in H. assert (g' = g) as -> by congruence. lia.
    + unfold processProposal in H. destruct (generateProposalRef _ _) as [ref|?|?|]; rewrite ?B in H; cbn [fst snd] in H; apply pair_equal_spec in H; destruct H as [<- _]; cbn [withPending gr_tree]; lia.
    + destruct (processCommit g ac [] [] now) as [g1 r1] eqn:E. apply commit_growth in E; [|exact Sn]. rewrite B in E. cbn [fst] in H. assert (g1 = g') as <- by congruence. lia.
  - unfold processPrivateMessage. pose proof (fun ac => private_content g m ac NL) as Hc. rewrite erase_private in Hc.
    destruct (openPrivateMessage g m) as [ac|?|?|]; try (intros H; assert (g' = g) as -> by congruence; lia). specialize (Hc ac eq_refl).
    destruct (fc_body (ac_content ac)) as [d|p|c] eqn:B; unfold noData; intros H.
    + assert (g' = g) as -> by congruence. lia.
    + unfold processProposal in H. destruct (generateProposalRef _ _) as [ref|?|?|]; rewrite ?B in H; cbn [fst snd] in H; apply pair_equal_spec in H; destruct H as [<- _]; cbn [withPending gr_tree]; lia.
    + destruct (processCommit g ac [] [] now) as [g1 r1] eqn:E. apply commit_growth in E; [|exact Sn]. rewrite B in E. cbn [fst] in H. assert (g1 = g') as <- by congruence. lia.
Qed.
End WithCrypto.
