(** Resolution of nodes and lists of unmerged leaves. *)
From Verif Require Export TreeOpFacts.

Lemma aos_refl p : ancestor_or_self p p.
Proof. exists []. now rewrite app_nil_r. Qed.
Lemma aos_trans a b c : ancestor_or_self a b -> ancestor_or_self b c -> ancestor_or_self a c.
Proof. intros (s & ->) (r & ->). exists (s ++ r). now rewrite app_assoc. Qed.
Lemma aos_length a p : ancestor_or_self a p -> (length a <= length p)%nat.
Proof. intros (s & ->). rewrite app_length. lia. Qed.
Lemma aos_same a p : ancestor_or_self a p -> length a = length p -> a = p.
Proof. intros (s & ->) H. rewrite app_length in H. destruct s; [now rewrite app_nil_r|cbn in H; lia]. Qed.
Lemma aos_above a p : ancestor_or_self a p <-> a = p \/ above a p.
Proof.
  split.
  - intros H. destruct (path_eq_dec a p); auto. right. apply above_spec. auto.
  - intros [->|H]; [apply aos_refl|]. now apply above_spec in H.
Qed.
Lemma aos_child p q : ancestor_or_self p q -> q = p \/ exists b, ancestor_or_self (p ++ [b]) q.
Proof.
  intros (s & ->). destruct s as [|b s]; [left; now rewrite app_nil_r|]. right. exists b, s. now rewrite <- app_assoc.
Qed.
Lemma aos_children_disjoint p q : ancestor_or_self (p ++ [false]) q -> ancestor_or_self (p ++ [true]) q -> False.
Proof.
  intros (s & ->) (r & E). rewrite <- !app_assoc in E. apply app_inv_head in E. discriminate.
Qed.
Lemma aos_snoc p b : ancestor_or_self p (p ++ [b]).
Proof. now exists [b]. Qed.

Lemma resolve_eq t x : resolve t x = resolveLoop 32 t x.
Proof. reflexivity. Qed.
Lemma resolveLoop_more t : forall f g p, (f <= g)%nat -> forall r, resolveLoop f t p = Ok r -> resolveLoop g t p = Ok r.
Proof.
  induction f as [|f IH]; intros g p Hg r E; destruct g as [|g]; try lia; auto; cbn [resolveLoop] in *;
    destruct (getN t p) as [[[|]|]| | |]; cbn [rbind] in *; auto; destruct (children p) as [[a b]|]; auto; try discriminate.
  apply rbind_ok in E. destruct E as (ra & E1 & E). apply rbind_ok in E. destruct E as (rb & E2 & E).
  rewrite (IH g a ltac:(lia) _ E1). cbn [rbind]. rewrite (IH g b ltac:(lia) _ E2). exact E.
Qed.
Lemma resolveLoop_resolve t f p r : (f <= 32)%nat -> resolveLoop f t p = Ok r -> resolve t p = Ok r.
Proof. intros H E. rewrite resolve_eq. exact (resolveLoop_more t f 32 p H r E). Qed.

Lemma resolve_step k t p : shaped k t -> in_tree k p -> forall fuel,
  resolveLoop fuel t (number k p) =
  match at_path k t p with
  | Some (NLeaf _) => Ok [number k p]
  | Some (NParent n) => Ok (number k p :: map nodeIndexOf (pn_unmergedLeaves n))
  | None =>
    if (length p =? k)%nat then Ok [] else
    match fuel with
    | O => Hang
    | S f => let! a := resolveLoop f t (number k (p ++ [false])) in
             let! b := resolveLoop f t (number k (p ++ [true])) in Ok (a ++ b)
    end
  end.
Proof.
  intros Sh Hp fuel. pose proof (shaped_full _ _ Sh) as F. pose proof F as [Hk _].
  destruct fuel; cbn [resolveLoop]; rewrite (at_path_getN k) by assumption; cbn [rbind];
    (destruct (at_path k t p) as [[l|n]|]; try reflexivity; destruct (Nat.eqb_spec (length p) k) as [E|E];
     [destruct (path_leaf k Hk p E) as [-> _]; reflexivity|unfold in_tree in Hp; rewrite (path_children k Hk) by lia; reflexivity]).
Qed.

Lemma snoc_in k p b : (length p < k)%nat -> in_tree k (p ++ [b]).
Proof. unfold in_tree. rewrite app_length. cbn. lia. Qed.

Section Resolve.
Variables (k : nat) (t : ratchetTree).
Hypothesis Sh : shaped k t.

Let F : full k t := shaped_full _ _ Sh.
Let Hk : fits k := proj1 F.

(** It always succeeds, with non-blank nodes of the subtree and unmerged
    leaves. *)
Lemma resolve_total : forall d p fuel, in_tree k p -> (k - length p <= d)%nat -> (d <= fuel)%nat ->
  exists r, resolveLoop fuel t (number k p) = Ok r /\
    (forall x, In x r -> (exists q n, in_tree k q /\ ancestor_or_self p q /\ x = number k q /\ at_path k t q = Some n) \/
                         (exists q pn u, in_tree k q /\ ancestor_or_self p q /\ at_path k t q = Some (NParent pn) /\ In u (pn_unmergedLeaves pn) /\ x = nodeIndexOf u)) /\
    (r = [] <-> forall q, in_tree k q -> ancestor_or_self p q -> at_path k t q = None).
Proof.
  induction d as [|d IH]; intros p fuel Hp Hd Hf; rewrite (resolve_step k t p Sh Hp); destruct (at_path k t p) as [[l|pn]|] eqn:E.
  1, 4: eexists; split; [reflexivity|]; split;
        [intros x [<-|[]]; left; exists p, (NLeaf l); splits; auto; apply aos_refl
        |split; [discriminate|intros H; rewrite H in E; [discriminate|assumption|apply aos_refl]]].
  1, 3: eexists; split; [reflexivity|]; split;
        [intros x [<-|Hx]; [left; exists p, (NParent pn); splits; auto; apply aos_refl|
          right; apply in_map_iff in Hx; destruct Hx as (u & <- & Hu); exists p, pn, u; splits; auto; apply aos_refl]
        |split; [discriminate|intros H; rewrite H in E; [discriminate|assumption|apply aos_refl]]].
  1: assert (El : length p = k) by (unfold in_tree in *; lia).
  2: destruct (Nat.eq_dec (length p) k) as [El|El].
  1, 2: rewrite El, Nat.eqb_refl; exists []; split; [reflexivity|]; split; [intros x []|]; split; [|reflexivity];
        intros _ q Hq Ha; apply aos_same in Ha; [now subst|unfold in_tree in *; apply aos_length in Ha; lia].
  rewrite (proj2 (Nat.eqb_neq _ _) El). assert (Hlt : (length p < k)%nat) by (unfold in_tree in *; lia).
  destruct fuel as [|fuel]; [lia|].
  assert (Hc : forall b, (k - length (p ++ [b]) <= d)%nat) by (intros b; rewrite app_length; cbn; lia).
  destruct (IH (p ++ [false]) fuel (snoc_in _ _ _ Hlt) (Hc _) ltac:(lia)) as (a & Ea & A1 & A2).
  destruct (IH (p ++ [true]) fuel (snoc_in _ _ _ Hlt) (Hc _) ltac:(lia)) as (b & Eb & B1 & B2).
  rewrite Ea. cbn [rbind]. rewrite Eb. cbn [rbind]. exists (a ++ b). split; [reflexivity|]. split.
  - intros x Hx. apply in_app_iff in Hx.
    assert (G : exists c, (exists q n, in_tree k q /\ ancestor_or_self (p ++ [c]) q /\ x = number k q /\ at_path k t q = Some n) \/
                         (exists q pn u, in_tree k q /\ ancestor_or_self (p ++ [c]) q /\ at_path k t q = Some (NParent pn) /\ In u (pn_unmergedLeaves pn) /\ x = nodeIndexOf u))
      by (destruct Hx as [Hx|Hx]; [exists false; auto|exists true; auto]).
    destruct G as (c & [(q & n & H1 & H2 & H3)|(q & pn & u & H1 & H2 & H3)]); [left; exists q, n|right; exists q, pn, u]; splits; try apply H3; auto;
      eapply aos_trans; eauto; apply aos_snoc.
  - split.
    + intros Hn q Hq Ha. apply app_eq_nil in Hn. destruct Hn as [-> ->]. apply aos_child in Ha. destruct Ha as [->|([|] & Ha)]; [assumption| |].
      * now apply (proj1 B2).
      * now apply (proj1 A2).
    + intros H. rewrite (proj2 A2), (proj2 B2); [reflexivity| |]; intros q Hq Ha; apply H; auto; eapply aos_trans; eauto; apply aos_snoc.
Qed.

Lemma resolve_ok p : in_tree k p ->
  exists r, resolve t (number k p) = Ok r /\
    (forall x, In x r -> (exists q n, in_tree k q /\ ancestor_or_self p q /\ x = number k q /\ at_path k t q = Some n) \/
                         (exists q pn u, in_tree k q /\ ancestor_or_self p q /\ at_path k t q = Some (NParent pn) /\ In u (pn_unmergedLeaves pn) /\ x = nodeIndexOf u)) /\
    (r = [] <-> forall q, in_tree k q -> ancestor_or_self p q -> at_path k t q = None).
Proof. intros Hp. rewrite resolve_eq. apply (resolve_total k); auto; unfold fits in Hk; lia. Qed.

(** With proper lists of unmerged leaves *)
Hypothesis Hl : lists_members_below k t.

Lemma resolve_nodes p r : in_tree k p -> resolve t (number k p) = Ok r ->
  forall x, In x r -> exists q n, in_tree k q /\ ancestor_or_self p q /\ x = number k q /\ at_path k t q = Some n.
Proof.
  intros Hp E x Hx. destruct (resolve_ok p Hp) as (r' & E' & H & _). rewrite E in E'. apply Ok_inj in E'. subst r'.
  destruct (H x Hx) as [Hq|(q & pn & u & H1 & H2 & H3 & H4 & ->)]; [assumption|].
  destruct (Hl q pn u H1 H3 H4) as (G1 & G2 & G3). exists (leafPath k u).
  rewrite (shaped_leaf k) by assumption. destruct (leaf_at t u) as [l|]; [|congruence]. exists (NLeaf l). splits.
  - apply leafPath_in.
  - eapply aos_trans; eauto. apply aos_above. auto.
  - rewrite leafPath_number by assumption. now apply (nodeIndexOf_leaf k).
  - reflexivity.
Qed.

Hypothesis Hn : no_repeats k t.

Lemma covers_below x p li r : in_tree k p -> resolve t (number k p) = Ok r -> In x r -> li < leaf_count k -> covers k t x li ->
  ancestor_or_self p (leafPath k li).
Proof.
  intros Hp E Hx Hli Hc. destruct (resolve_nodes p r Hp E x Hx) as (q & n & H1 & H2 & -> & H4).
  eapply aos_trans; [exact H2|]. destruct Hc as [Ec|(q' & pn & G1 & G2 & G3 & G4 & G5)].
  - rewrite <- (leafPath_number k li Hli) in Ec. apply number_inj in Ec; auto; [subst; apply aos_refl|apply leafPath_in].
  - apply number_inj in G2; auto. subst. apply aos_above. auto.
Qed.

Lemma unique_app {X} (P : X -> Prop) (a b : list X) :
  (exists! i, exists x, nth_error a i = Some x /\ P x) -> (forall x, In x b -> ~ P x) ->
  exists! i, exists x, nth_error (a ++ b) i = Some x /\ P x.
Proof.
  intros (i & (x & Hx & Px) & Hu) Hb. exists i. split.
  - exists x. split; auto. rewrite nth_error_app1; auto. apply nth_error_Some. congruence.
  - intros j (y & Hy & Py). destruct (Nat.lt_ge_cases j (length a)) as [Hj|Hj].
    + rewrite nth_error_app1 in Hy by assumption. apply Hu. eauto.
    + rewrite nth_error_app2 in Hy by assumption. apply nth_error_In in Hy. exfalso. eapply Hb; eauto.
Qed.
Lemma unique_app' {X} (P : X -> Prop) (a b : list X) :
  (forall x, In x a -> ~ P x) -> (exists! i, exists x, nth_error b i = Some x /\ P x) ->
  exists! i, exists x, nth_error (a ++ b) i = Some x /\ P x.
Proof.
  intros Ha (i & (x & Hx & Px) & Hu). exists (length a + i)%nat. split.
  - exists x. split; auto. rewrite nth_error_app2 by lia. rewrite <- Hx. f_equal. lia.
  - intros j (y & Hy & Py). destruct (Nat.lt_ge_cases j (length a)) as [Hj|Hj].
    + rewrite nth_error_app1 in Hy by assumption. apply nth_error_In in Hy. exfalso. eapply Ha; eauto.
    + rewrite nth_error_app2 in Hy by assumption. rewrite (Hu (j - length a)%nat); [lia|]. eauto.
Qed.

(** Every member below is covered exactly once. *)
Lemma resolve_covers : forall d p fuel r, in_tree k p -> (k - length p <= d)%nat -> (d <= fuel)%nat -> (fuel <= 32)%nat ->
  resolveLoop fuel t (number k p) = Ok r ->
  forall li, li < leaf_count k -> leaf_at t li <> None -> ancestor_or_self p (leafPath k li) ->
  exists! i, exists x, nth_error r i = Some x /\ covers k t x li.
Proof.
  induction d as [|d IH]; intros p fuel r Hp Hd Hf Hf2 E li Hli Hm Ha; pose proof (resolveLoop_resolve t fuel (number k p) r Hf2 E) as ER;
    rewrite (resolve_step k t p Sh Hp) in E; destruct (at_path k t p) as [[l|pn]|] eqn:En.
  1, 4: apply Ok_inj in E; subst r; pose proof En as El; apply Sh in El; auto; cbn in El;
        apply aos_same in Ha; [|now rewrite leafPath_length]; subst p;
        exists 0%nat; (split; [exists (number k (leafPath k li)); split; [reflexivity|]; left; now apply leafPath_number|
                              intros [|j] (y & Hy & _); [reflexivity|destruct j; discriminate]]).
  1, 3: apply Ok_inj in E; subst r; pose proof En as El; apply Sh in El; auto; cbn in El;
        assert (Hab : above p (leafPath k li)) by (apply aos_above in Ha; destruct Ha as [Ha|]; auto; subst p; rewrite leafPath_length in El; lia);
        assert (Hun : forall u, In u (pn_unmergedLeaves pn) -> covers k t (nodeIndexOf u) li -> u = li) by
          (intros u Hu Hc; destruct (Hl p pn u Hp En Hu) as (U1 & _ & _); rewrite (nodeIndexOf_leaf k) in Hc by assumption;
           destruct Hc as [Hc|(q & pn' & G1 & G2 & G3 & G4 & _)]; [lia|];
           rewrite <- (leafPath_number k u U1) in G2; apply number_inj in G2; auto; [|apply leafPath_in]; subst q;
           apply above_length in G4; rewrite !leafPath_length in G4; lia);
        destruct (in_dec N.eq_dec li (pn_unmergedLeaves pn)) as [Hin|Hnin];
        [apply (unique_app' (fun x => covers k t x li) [number k p] (map nodeIndexOf (pn_unmergedLeaves pn)));
         [intros x [<-|[]] [Hc|(q & pn' & G1 & G2 & G3 & G4 & G5)];
           [rewrite <- (leafPath_number k li Hli) in Hc; apply number_inj in Hc; auto; [|apply leafPath_in]; subst p; now apply above_not_self in Hab
           |apply number_inj in G2; auto; subst q; rewrite En in G3; injection G3 as <-; contradiction]
         |apply In_nth_error in Hin; destruct Hin as (i & Hi); exists i; split;
           [exists (nodeIndexOf li); split; [now apply map_nth_error|left; now apply (nodeIndexOf_leaf k)]
           |intros j (y & Hy & Hc); rewrite nth_error_map in Hy; destruct (nth_error (pn_unmergedLeaves pn) j) as [u|] eqn:Eu; [|discriminate];
            injection Hy as <-; apply Hun in Hc; [subst u|eapply nth_error_In; eauto];
            apply (proj1 (NoDup_nth_error (pn_unmergedLeaves pn)) (Hn p pn Hp En)); [apply nth_error_Some; congruence|congruence]]]
        |apply (unique_app (fun x => covers k t x li) [number k p] (map nodeIndexOf (pn_unmergedLeaves pn)));
         [exists 0%nat; split; [exists (number k p); split; [reflexivity|]; right; exists p, pn; auto|
                               intros [|j] (y & Hy & _); [reflexivity|destruct j; discriminate]]
         |intros x Hx Hc; apply in_map_iff in Hx; destruct Hx as (u & <- & Hu); apply Hun in Hc; auto; subst u; contradiction]].
  - exfalso. assert (El : length p = k) by (unfold in_tree in *; lia). apply aos_same in Ha; [|now rewrite leafPath_length]. subst p.
    rewrite (shaped_leaf k) in En by assumption. destruct (leaf_at t li); [discriminate|congruence].
  - destruct (Nat.eq_dec (length p) k) as [El|El].
    + exfalso. apply aos_same in Ha; [|now rewrite leafPath_length]. subst p.
      rewrite (shaped_leaf k) in En by assumption. destruct (leaf_at t li); [discriminate|congruence].
    + rewrite (proj2 (Nat.eqb_neq _ _) El) in E. assert (Hlt : (length p < k)%nat) by (unfold in_tree in *; lia).
      destruct fuel as [|fuel]; [discriminate|].
      apply rbind_ok in E. destruct E as (a & Ea & E). apply rbind_ok in E. destruct E as (b & Eb & E). apply Ok_inj in E. subst r.
      assert (Hc : forall c, (k - length (p ++ [c]) <= d)%nat) by (intros c; rewrite app_length; cbn; lia).
      pose proof (resolveLoop_resolve t fuel _ _ ltac:(lia) Ea) as RA. pose proof (resolveLoop_resolve t fuel _ _ ltac:(lia) Eb) as RB.
      apply aos_child in Ha. destruct Ha as [Ha|([|] & Ha)].
      * exfalso. subst p. rewrite leafPath_length in El. congruence.
      * apply unique_app'.
        -- intros x Hx Hcov. apply (covers_below x (p ++ [false]) li a) in Hcov; auto; [|now apply snoc_in]. eapply aos_children_disjoint; eauto.
        -- eapply (IH (p ++ [true]) fuel); eauto; try lia. now apply snoc_in.
      * apply unique_app.
        -- eapply (IH (p ++ [false]) fuel); eauto; try lia. now apply snoc_in.
        -- intros x Hx Hcov. apply (covers_below x (p ++ [true]) li b) in Hcov; auto; [|now apply snoc_in]. eapply aos_children_disjoint; eauto.
Qed.
End Resolve.
