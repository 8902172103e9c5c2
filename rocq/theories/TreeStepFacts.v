(** Histories of ratchet trees *)
From Coq Require Import Permutation.
From Verif Require Export UnmergedFacts SpecProposal.

Lemma setN_nil {A} x (a : A) t : setN [] x a <> Ok t.
Proof. intros H. apply setN_ok in H. destruct H as [H _]. change (lenN (@nil A)) with 0 in H. lia. Qed.
Lemma foldM_setN_nil {A X} (f : X -> N) (g : X -> A) xs t :
  foldM (fun t x => setN t (f x) (g x)) [] xs = Ok t -> t = [] /\ xs = [].
Proof.
  destruct xs as [|x xs]; cbn; intros H; [apply Ok_inj in H; auto|]. apply rbind_ok in H. destruct H as (t1 & H & _). now apply setN_nil in H.
Qed.

Section WithCrypto.
Context {C : crypto}.

Lemma merge_nil cs li up t : mergeUpdatePath cs [] li up <> Ok t.
Proof.
  intros H. unfold mergeUpdatePath in H. apply rbind_ok in H. destruct H as (dp & _ & H).
  apply rbind_ok in H. destruct H as (t1 & H1 & H).
  apply (foldM_setN_nil (fun x => x) (fun _ => None)) in H1. destruct H1 as [-> ->].
  apply rbind_ok in H. destruct H as (fdp & _ & H). apply rbind_ok in H. destruct H as ([] & G & H).
  apply guard_ok in G. apply N.eqb_eq in G.
  apply rbind_ok in H. destruct H as (t2 & H2 & H).
  apply (foldM_setN_nil fst (fun p => Some (NParent (mkParentNode (upn_encryptionKey (snd p)) [] [])))) in H2. destruct H2 as [-> H2].
  assert (fdp = []).
  { destruct fdp; [reflexivity|]. destruct (up_nodes up); [|discriminate]. unfold lenN in G. cbn in G. lia. }
  subst fdp. cbn [rev mergeParentHashes] in H. cbn [rbind] in H. apply rbind_ok in H. destruct H as (_ & _ & H). now apply setN_nil in H.
Qed.

Definition kept (P : ratchetTree -> Prop) : Prop :=
  (forall t l t', P t -> vadd t l = Ok t' -> P t') /\
  (forall t li l t', P t -> update t li (NLeaf l) = Ok t' -> P t') /\
  (forall t li t', P t -> Tree.remove t li = Ok t' -> P t') /\
  (forall t ps ss t', P t -> vapply t ps ss = Ok t' -> P t') /\
  (forall cs t li up t', P t -> mergeUpdatePath cs t li up = Ok t' -> P t').

Lemma rmap_inv {X Y} (f : X -> Y) r x y : rmap f r = y -> r = Ok x -> y = Ok (f x).
Proof. now intros <- ->. Qed.

Lemma step_kept (P : ratchetTree -> Prop) s s' : (forall t, P t -> well_shaped t) -> kept P -> tree_step s s' ->
  proper (fst s) (snd s) -> P (value s) -> proper (fst s') (snd s') /\ P (value s').
Proof.
  intros W (Ha & Hu & Hr & Hp & Hm) St. destruct St as [h t l [h' t'] H|h t li l [h' t'] H|h t li t' H|h t ps ss [h' t'] H|cs h t li up [h' t'] H];
    unfold value; cbn [fst snd]; intros Pr HP.
  - destruct (addH_value h t l Pr) as [V Q]. split; [eauto|]. apply (Ha _ l _ HP). exact (rmap_inv _ _ _ _ V H).
  - destruct (updateH_value h t li l Pr) as [V Q]. split; [now apply Q|]. apply (Hu _ li l _ HP). exact (rmap_inv _ _ _ _ V H).
  - split; [eapply proper_remove; eauto|]. apply (Hr _ li _ HP). exact (rmap_inv _ _ _ _ (removeH_value h t li Pr) H).
  - destruct (applyH_value h t ps ss Pr) as [V Q]. split; [eauto|]. apply (Hp _ ps ss _ HP). exact (rmap_inv _ _ _ _ V H).
  - destruct (W _ HP) as [Hn|(k & Sh)].
    + exfalso. unfold mergeUpdatePathH in H. apply rbind_ok in H. destruct H as (v & H & _). rewrite Hn in H. now apply merge_nil in H.
    + destruct (mergeH_inv cs k h t li up h' t' Pr Sh H) as (H1 & H2 & _). split; [assumption|]. eapply Hm; eauto.
Qed.
Lemma steps_kept (P : ratchetTree -> Prop) s s' : (forall t, P t -> well_shaped t) -> kept P -> tree_steps s s' ->
  proper (fst s) (snd s) -> P (value s) -> proper (fst s') (snd s') /\ P (value s').
Proof.
  intros W K St. induction St as [s|s1 s2 s3 St _ IH]; [auto|]. intros Pr HP. destruct (step_kept P _ _ W K St Pr HP) as [Pr2 HP2]. auto.
Qed.

(** C12 *)
Lemma shape_kept : kept well_shaped.
Proof.
  splits.
  - intros t l t' W H. destruct (add_shape t l t' W H) as (k & t0 & li & _ & _ & _ & A & _). right. eauto.
  - intros t li l t' W H. destruct (update_shape t li l t' W H) as (k & _ & _ & S). right. eauto.
  - intros t li t' W H. destruct (remove_shape t li t' W H) as (k & t1 & _ & _ & _ & _ & S). assumption.
  - intros. eapply vapply_shape; eauto.
  - intros cs t li up t' [->|(k & Sh)] H; [now apply merge_nil in H|]. right. exists k. eapply mergeUpdatePath_sound; eauto.
Qed.
Theorem history_shape s s' : tree_steps s s' -> proper (fst s) (snd s) -> well_shaped (deref (fst s) (snd s)) ->
  proper (fst s') (snd s') /\ well_shaped (deref (fst s') (snd s')).
Proof. intros St. exact (steps_kept well_shaped s s' (fun _ w => w) shape_kept St). Qed.

(** C18 *)
Lemma strong_kept : kept strong_rule.
Proof.
  splits.
  - exact strong_add.
  - exact strong_update.
  - exact strong_remove.
  - exact strong_apply.
  - intros cs t li up t' S H. eapply strong_merge; eauto. intros ->. now apply merge_nil in H.
Qed.
Theorem history_unmerged s s' : tree_steps s s' -> proper (fst s) (snd s) -> strong_rule (deref (fst s) (snd s)) ->
  proper (fst s') (snd s') /\ strong_rule (deref (fst s') (snd s')).
Proof.
  intros St. refine (steps_kept strong_rule s s' _ strong_kept St). intros t [->|(k & Sh & _)]; [now left|right; eauto].
Qed.

(** C13 *)
Theorem addH_adds h t l : proper h t -> well_shaped (deref h t) ->
  (room (deref h t) ->
   exists k t0 li h' t', addH h t l = Ok (h', t') /\ leftmost_free (deref h t) li /\
     (t0 = deref h t /\ 2 * li < lenN t \/ t0 = grown (deref h t) /\ forall j, 2 * j < lenN t -> leaf_at (deref h t) j <> None) /\
     shaped k t0 /\ added k t0 (deref h' t') li l /\ proper h' t') /\
  (~ room (deref h t) -> forall r, addH h t l <> Ok r).
Proof.
  intros Pr W. destruct (addH_value h t l Pr) as [V Q]. split.
  - intros R. destruct (vadd_ok _ l W R) as (k & t0 & li & v & E & HL & HT & HS & HA). rewrite E in V.
    destruct (addH h t l) as [[h' t']| | |] eqn:EA; try discriminate V. cbn -[deref] in V. apply Ok_inj in V.
    exists k, t0, li, h', t'. rewrite V. splits; auto. destruct HT as [->|HT]; [left|right].
    + split; [reflexivity|]. destruct HA as (_ & Hli & _). pose proof (proj2 (leaf_in_array k _ li (shaped_full _ _ HS)) Hli) as H. now rewrite lenN_deref in H.
    + now rewrite lenN_deref in HT.
  - intros NR [h' t'] H. apply NR. apply (vadd_room _ l (deref h' t') W). exact (rmap_inv _ _ _ _ V H).
Qed.

(** C14 *)
Theorem remove_removes k h t li : proper h t -> shaped k (deref h t) ->
  (designated li < leaf_count k ->
   exists t1 t', Tree.remove t li = Ok t' /\ replaced k (deref h t) t1 (designated li) None /\ truncated k t1 (deref h t') /\ proper h t') /\
  (leaf_count k <= designated li -> forall r, Tree.remove t li <> Ok r).
Proof.
  intros Pr Sh. pose proof (removeH_value h t li Pr) as V. split.
  - intros Hli. destruct (remove_ok k _ li (shaped_full _ _ Sh) Hli) as (t1 & v & E & R & T). rewrite E in V.
    destruct (Tree.remove t li) as [t'| | |] eqn:ER; try discriminate V. cbn -[deref] in V. apply Ok_inj in V. exists t1, t'. rewrite V. splits; auto.
    eapply proper_remove; eauto.
  - intros Hli t' H. pose proof (rmap_inv _ _ _ _ V H) as E. destruct (remove_inv k _ li _ (shaped_full _ _ Sh) E) as (t1 & (_ & L & _) & _). lia.
Qed.
(** Every other member keeps its leaf. *)
Theorem remove_others h t li t' : proper h t -> well_shaped (deref h t) -> Tree.remove t li = Ok t' ->
  forall j, leaf_at (deref h t') j = if j =? designated li then None else leaf_at (deref h t) j.
Proof.
  intros Pr W H j. pose proof (rmap_inv _ _ _ _ (removeH_value h t li Pr) H) as E.
  destruct (remove_members _ li _ W E) as (_ & H1 & H2). destruct (N.eqb_spec j (designated li)) as [->|Hn]; auto.
Qed.

(** C15 *)
Theorem updateH_updates k h t li l : proper h t -> shaped k (deref h t) ->
  (designated li < leaf_count k ->
   exists h' t', updateH h t li l = Ok (h', t') /\ replaced k (deref h t) (deref h' t') (designated li) (Some (NLeaf l)) /\ proper h' t') /\
  (leaf_count k <= designated li -> forall r, updateH h t li l <> Ok r).
Proof.
  intros Pr Sh. destruct (updateH_value h t li l Pr) as [V Q]. split.
  - intros Hli. destruct (update_ok k _ li (NLeaf l) (shaped_full _ _ Sh) Hli) as (v & E & R). rewrite E in V.
    destruct (updateH h t li l) as [[h' t']| | |] eqn:EA; try discriminate V. cbn -[deref] in V. apply Ok_inj in V.
    exists h', t'. rewrite V. splits; auto. now apply Q.
  - intros Hli [h' t'] H. pose proof (rmap_inv _ _ _ _ V H) as E. destruct (update_inv k _ li _ _ (shaped_full _ _ Sh) E) as (_ & L & _). lia.
Qed.

(** C16 *)
Lemma designated_small x : x < 2 ^ 31 -> designated x = x.
Proof. apply N.mod_small. Qed.
Lemma NoDup_split_changed l : NoDup (changedLeaves l) -> Forall (fun x => x < 2 ^ 31) (changedLeaves l) ->
  NoDup (map fst (updatesOf l) ++ removalsOf l).
Proof.
  assert (G : forall l, Forall (fun x => x < 2 ^ 31) (changedLeaves l) ->
            Permutation (changedLeaves l) (map fst (updatesOf l) ++ removalsOf l)).
  { clear. induction l as [|[p s] l IH]; intros F; [constructor|].
    unfold changedLeaves, updatesOf, removalsOf in *. cbn [flat_map] in *. cbn [fst snd] in *.
    destruct p; cbn [app map fst] in *; try (now apply IH); inversion F; subst.
    - rewrite designated_small by assumption. constructor. now apply IH.
    - rewrite designated_small by assumption. apply Permutation_cons_app. now apply IH. }
  intros H F. exact (Permutation_NoDup (G l F) H).
Qed.
Theorem applyH_members h t l h' t' : proper h t -> well_shaped (deref h t) ->
  NoDup (changedLeaves l) -> Forall (fun x => x < 2 ^ 31) (changedLeaves l) ->
  applyH h t (map fst l) (map snd l) = Ok (h', t') ->
  exists M, changed (leaf_at (deref h t)) l M /\ fills M (additionsOf l) (leaf_at (deref h' t')).
Proof.
  intros Pr W Nd F H. destruct (applyH_value h t (map fst l) (map snd l) Pr) as [V _].
  apply (vapply_members _ l _ W); [now apply NoDup_split_changed|]. exact (rmap_inv _ _ _ _ V H).
Qed.
Lemma changedLeaves_updates l s m : In (s, m) (updatesOf l) -> exists s', s = designated s' /\ In s' (changedLeaves l).
Proof.
  unfold updatesOf, changedLeaves. rewrite in_flat_map. intros ([p x] & H & Hi). cbn [fst snd] in Hi. destruct p; cbn in Hi; try tauto.
  destruct Hi as [Hi|[]]. injection Hi as <- <-. exists x. split; auto. apply in_flat_map. eexists. split; eauto. cbn. auto.
Qed.
Lemma changedLeaves_removals l r : In r (removalsOf l) -> exists r', r = designated r' /\ In r' (changedLeaves l).
Proof.
  unfold removalsOf, changedLeaves. rewrite in_flat_map. intros ([p x] & H & Hi). cbn [fst snd] in Hi. destruct p; cbn in Hi; try tauto.
  destruct Hi as [<-|[]]. eexists. split; eauto. apply in_flat_map. eexists. split; eauto. cbn. auto.
Qed.
Lemma NoDup_app_right {A} (a b : list A) : NoDup (a ++ b) -> NoDup b.
Proof. induction a; cbn; auto. intros H. inversion H; auto. Qed.
Theorem applyH_applies h t l n : proper h t -> well_shaped (deref h t) ->
  NoDup (changedLeaves l) -> Forall (fun x => x < 2 ^ 31 /\ leaf_at (deref h t) x <> None) (changedLeaves l) ->
  at_most (leaf_at (deref h t)) n -> n + lenN (additionsOf l) <= 2 ^ 31 ->
  exists h' t', applyH h t (map fst l) (map snd l) = Ok (h', t') /\ proper h' t'.
Proof.
  intros Pr W Nd F Am Hn. destruct (applyH_value h t (map fst l) (map snd l) Pr) as [V Q].
  rewrite Forall_forall in F.
  destruct (vapply_succeeds (deref h t) l n W) as (v & E); auto.
  - eapply NoDup_app_right. apply NoDup_split_changed; eauto. apply Forall_forall. intros x Hx. now apply F.
  - intros s m Hi. apply changedLeaves_updates in Hi. destruct Hi as (s' & -> & Hi). destruct (F s' Hi). now rewrite designated_small.
  - intros r Hi. apply changedLeaves_removals in Hi. destruct Hi as (s' & -> & Hi). destruct (F s' Hi). now rewrite designated_small.
  - rewrite E in V. destruct (applyH h t (map fst l) (map snd l)) as [[h' t']| | |]; try discriminate V. eauto.
Qed.

(** C17 *)
Theorem resolve_reaches k t p : shaped k t -> lists_members_below k t -> no_repeats k t -> in_tree k p ->
  exists r, resolve t (number k p) = Ok r /\
    (forall x, In x r -> exists q n, in_tree k q /\ ancestor_or_self p q /\ x = number k q /\ at_path k t q = Some n) /\
    (forall li, li < leaf_count k -> leaf_at t li <> None -> ancestor_or_self p (leafPath k li) ->
       exists! i, exists x, nth_error r i = Some x /\ covers k t x li) /\
    (r = [] <-> forall q, in_tree k q -> ancestor_or_self p q -> at_path k t q = None).
Proof.
  intros Sh Hl Hr Hp. destruct (resolve_ok k t Sh p Hp) as (r & E & _ & Hn). exists r. splits; auto.
  - exact (resolve_nodes k t Sh Hl p r Hp E).
  - intros li H1 H2 H3. rewrite resolve_eq in E. pose proof (proj1 (shaped_full _ _ Sh)) as Hk. unfold fits in Hk. refine (resolve_covers k t Sh Hl Hr k p 32 r Hp _ _ _ E li H1 H2 H3); lia.
Qed.

(** C20 *)
Theorem mergeH_sound cs k h t li up h' t' : proper h t -> shaped k (deref h t) ->
  mergeUpdatePathH cs h t li up = Ok (h', t') -> proper h' t' /\ merged cs k (deref h t) (deref h' t') (designated li) up.
Proof.
  intros Pr Sh H. destruct (mergeH_inv cs k h t li up h' t' Pr Sh H) as (H1 & H2 & _). split; auto. eapply mergeUpdatePath_sound; eauto.
Qed.
Theorem mergeH_complete cs d k h t li up v : crypto_ok C -> cipherSuiteDescriptions cs = Some d ->
  proper h t -> shaped k (deref h t) -> encodable (deref h t) -> encodable_path up ->
  merged cs k (deref h t) v (designated li) up ->
  exists h' t', mergeUpdatePathH cs h t li up = Ok (h', t') /\ deref h' t' = v.
Proof.
  intros OK Hd Pr Sh He Hep M. pose proof (mergeUpdatePath_complete cs k _ li up v d OK Hd Sh He Hep M) as E.
  destruct (proj1 (mergeH_value cs k h t li up Pr Sh) v E) as (h' & t' & H1 & H2 & _). eauto.
Qed.
End WithCrypto.
