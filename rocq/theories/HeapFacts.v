(** The operations on trees in the heap are the operations on their values. *)
From Verif Require Export TreeFacts.

(** ** Naturality of the operations on trees of anything *)
Section Nat.
Context {A B : Type}.
Variable g : A -> B.
Notation m := (map (option_map g)).

Lemma lenN_map {X Y} (f : X -> Y) l : lenN (map f l) = lenN l.
Proof. unfold lenN. now rewrite map_length. Qed.
Lemma numLeaves_map {X Y} (f : X -> Y) l : numLeaves (map f l) = numLeaves l.
Proof. unfold numLeaves. now rewrite lenN_map. Qed.
Lemma getN_map {X Y} (f : X -> Y) t x : getN (map f t) x = rmap f (getN t x).
Proof.
  unfold getN. rewrite lenN_map. destruct (x <? lenN t); [|reflexivity]. unfold index. rewrite nth_error_map.
  destruct (nth_error t (N.to_nat x)); reflexivity.
Qed.
Lemma upd_map {X Y} (f : X -> Y) t i a : upd (map f t) i (f a) = map f (upd t i a).
Proof. revert i; induction t as [|b t IH]; intros [|i]; cbn; congruence. Qed.
Lemma setN_map {X Y} (f : X -> Y) t x a : setN (map f t) x (f a) = rmap (map f) (setN t x a).
Proof. unfold setN. rewrite lenN_map. destruct (x <? lenN t); [|reflexivity]. cbn. now rewrite upd_map. Qed.
Lemma rbind_rmap {X Y Z} (f : X -> Y) (r : res X) (k : Y -> res Z) : rbind (rmap f r) k = rbind r (fun x => k (f x)).
Proof. destruct r; reflexivity. Qed.
Lemma rmap_rbind {X Y Z} (r : res X) (k : X -> res Y) (f : Y -> Z) : rmap f (rbind r k) = rbind r (fun x => rmap f (k x)).
Proof. destruct r; reflexivity. Qed.
Lemma rbind_ext {X Y} (r : res X) (k1 k2 : X -> res Y) : (forall x, r = Ok x -> k1 x = k2 x) -> rbind r k1 = rbind r k2.
Proof. destruct r; cbn; auto. Qed.
Lemma foldM_map {S T X} (f : S -> X -> res S) (f' : T -> X -> res T) (h : S -> T) l :
  (forall s x, In x l -> f' (h s) x = rmap h (f s x)) -> forall s, foldM f' (h s) l = rmap h (foldM f s l).
Proof.
  induction l as [|x l IH]; intros H s; cbn; [reflexivity|]. rewrite H by (cbn; auto). rewrite rbind_rmap, rmap_rbind.
  apply rbind_ext. intros s' _. apply IH. intros. apply H. cbn; auto.
Qed.

Lemma blanks_map t xs : foldM (fun t x => setN t x None) (m t) xs = rmap m (foldM (fun t x => setN t x None) t xs).
Proof. apply foldM_map. intros s x _. exact (setN_map (option_map g) s x None). Qed.

Lemma freeSlot_map fuel : forall t li, freeSlot fuel (m t) li = freeSlot fuel t li.
Proof.
  induction fuel as [|f IH]; intros t li; cbn [freeSlot]; rewrite lenN_map, getN_map; destruct (lenN t <=? nodeIndexOf li); try reflexivity;
    destruct (getN t (nodeIndexOf li)) as [[a|]| | |]; cbn; auto.
Qed.
Lemma addSlot_map t : addSlot (m t) = rmap (fun r => (m (fst r), snd r)) (addSlot t).
Proof.
  assert (R : forall n, repeat (@None B) n = map (option_map g) (repeat None n)) by (induction n; cbn; congruence).
  unfold addSlot. rewrite map_length, freeSlot_map, rmap_rbind. apply rbind_ext. intros [found li] _. cbn [rmap fst snd].
  destruct found; [reflexivity|]. rewrite R, <- map_app. reflexivity.
Qed.
Lemma update_map t li a : update (m t) li (g a) = rmap m (update t li a).
Proof.
  unfold update. rewrite numLeaves_map. change (Some (g a)) with (option_map g (Some a)). rewrite setN_map, rbind_rmap, rmap_rbind.
  apply rbind_ext. intros t1 _. rewrite rmap_rbind. apply rbind_ext. intros dp _. apply blanks_map.
Qed.
Lemma lastMember_map fuel : forall t li lp, lastMember fuel (m t) li lp = lastMember fuel t li lp.
Proof.
  induction fuel as [|f IH]; intros t li lp; cbn [lastMember]; rewrite getN_map;
    destruct (getN t (nodeIndexOf li)) as [[a|]| | |]; cbn; auto; destruct (li =? 0); auto.
Qed.
Lemma remove_map t li : Tree.remove (m t) li = rmap m (Tree.remove t li).
Proof.
  unfold Tree.remove. rewrite numLeaves_map, map_length. change (@None B) with (option_map g None) at 1. rewrite setN_map, rbind_rmap, rmap_rbind.
  apply rbind_ext. intros t1 _. rewrite rmap_rbind. apply rbind_ext. intros dp _. rewrite blanks_map, rbind_rmap, rmap_rbind.
  apply rbind_ext. intros t2 _. rewrite lenN_map, lastMember_map, rmap_rbind. apply rbind_ext. intros [lp|] _; [|reflexivity].
  cbn. f_equal. destruct (lp <? lenN t2 + 1); [|reflexivity]. apply firstn_map.
Qed.
End Nat.

(** ** The heap *)
Definition blankParent : node := NParent (mkParentNode [] [] []).
Definition at_heap (h : heap) (p : nat) : node := nth p h blankParent.

Definition pointers_in (h : heap) (t : ptree) : Prop := forall p, In (Some p) t -> (p < length h)%nat.
Definition apart (t : ptree) : Prop := forall i j p, nth_error t i = Some (Some p) -> nth_error t j = Some (Some p) -> i = j.

Lemma deref_map h t : pointers_in h t -> deref h t = map (option_map (at_heap h)) t.
Proof.
  intros H. unfold deref. apply map_ext_in. intros [p|] Hin; [|reflexivity]. cbn. unfold at_heap. symmetry. now rewrite (nth_error_nth' h blankParent (H p Hin)).
Qed.
Lemma deref_ext h h' t : (forall p, In (Some p) t -> nth_error h' p = nth_error h p) -> deref h' t = deref h t.
Proof. intros H. unfold deref. apply map_ext_in. intros [p|] Hin; [|reflexivity]. now apply H. Qed.
Lemma length_deref h t : length (deref h t) = length t.
Proof. apply map_length. Qed.
Lemma lenN_deref h t : lenN (deref h t) = lenN t.
Proof. apply lenN_map. Qed.
Lemma numLeaves_deref h t : numLeaves (deref h t) = numLeaves t.
Proof. apply numLeaves_map. Qed.
Lemma getN_deref h t x : getN (deref h t) x = rmap (fun o => match o with None => None | Some p => nth_error h p end) (getN t x).
Proof. apply getN_map. Qed.

Lemma pointers_setN h t x o t' : pointers_in h t -> (forall p, o = Some p -> (p < length h)%nat) -> setN t x o = Ok t' -> pointers_in h t'.
Proof.
  intros H Ho E p Hp. apply In_nth_error in Hp. destruct Hp as (i & Hi). apply setN_ok in E. destruct E as [_ ->].
  rewrite upd_nth in Hi. destruct (N.to_nat x =? i)%nat.
  - destruct (_ <? length t)%nat; [|discriminate]. injection Hi as E. auto.
  - apply H. eapply nth_error_In; eauto.
Qed.
Lemma apart_setN_None t x t' : apart t -> setN t x None = Ok t' -> apart t'.
Proof.
  intros H E i j p Hi Hj. apply setN_ok in E. destruct E as [_ ->]. rewrite upd_nth in Hi, Hj.
  destruct (N.to_nat x =? i)%nat; [destruct (_ <? length t)%nat; discriminate|].
  destruct (N.to_nat x =? j)%nat; [destruct (_ <? length t)%nat; discriminate|]. eauto.
Qed.
Lemma apart_setN_fresh h t x t' : pointers_in h t -> apart t -> setN t x (Some (length h)) = Ok t' -> apart t'.
Proof.
  intros HP H E i j p Hi Hj. apply setN_ok in E. destruct E as [_ ->]. rewrite upd_nth in Hi, Hj.
  destruct (Nat.eqb_spec (N.to_nat x) i) as [Ei|]; destruct (Nat.eqb_spec (N.to_nat x) j) as [Ej|]; try congruence.
  - destruct (_ <? length t)%nat; [|discriminate]. injection Hi as <-. apply nth_error_In in Hj. apply HP in Hj. lia.
  - destruct (_ <? length t)%nat; [|discriminate]. injection Hj as <-. apply nth_error_In in Hi. apply HP in Hi. lia.
  - eauto.
Qed.
Lemma proper_blanks h xs : forall t t', proper h t -> foldM (fun t x => setN t x None) t xs = Ok t' -> proper h t'.
Proof.
  intros t t' H. apply (foldM_inv (fun t x => setN t x None) (proper h)); auto. intros s x s' _ [HP HA] E. split.
  - eapply pointers_setN; eauto. intros; discriminate.
  - eapply apart_setN_None; eauto.
Qed.
Lemma proper_firstn h t n : proper h t -> proper h (firstn n t).
Proof.
  intros [HP HA]. assert (G : forall i p, nth_error (firstn n t) i = Some (Some p) -> nth_error t i = Some (Some p)).
  { intros i p H. assert (i < n)%nat.
    { assert (i < length (firstn n t))%nat by (apply nth_error_Some; congruence). rewrite firstn_length in H0. lia. }
    rewrite <- (firstn_skipn n t), nth_error_app1; auto. apply nth_error_Some. congruence. }
  split.
  - intros p Hp. apply In_nth_error in Hp. destruct Hp as (i & Hi). apply HP. eapply nth_error_In; eauto.
  - intros i j p Hi Hj. eauto.
Qed.
Lemma proper_nil h : proper h [].
Proof. split; [intros p []|]. intros [|i] j p H; discriminate. Qed.
Lemma proper_more h n t : proper h t -> proper (h ++ n) t.
Proof. intros [HP HA]. split; auto. intros p Hp. rewrite app_length. apply HP in Hp. lia. Qed.

Lemma proper_remove h t li t' : proper h t -> Tree.remove t li = Ok t' -> proper h t'.
Proof.
  intros H E. unfold Tree.remove in E. rinv. assert (P1 : proper h v).
  { destruct H. split; [eapply pointers_setN; eauto; intros; discriminate|eapply apart_setN_None; eauto]. }
  assert (P2 : proper h v1) by (eapply proper_blanks; eauto).
  destruct v2; rinv; subst; [|apply proper_nil]. destruct (n <? lenN v1 + 1); auto. now apply proper_firstn.
Qed.
Lemma proper_repeat h n : proper h (repeat None n).
Proof. split; [intros p Hp; now apply repeat_spec in Hp|]. intros i j p Hi. apply nth_error_In, repeat_spec in Hi. discriminate. Qed.
Lemma proper_grown h t : proper h t -> proper h (grown t).
Proof.
  intros [HP HA]. unfold grown. assert (G : forall i p, nth_error (t ++ repeat None (S (length t))) i = Some (Some p) -> nth_error t i = Some (Some p)).
  { intros i p H. destruct (Nat.lt_ge_cases i (length t)) as [Hi|Hi].
    - now rewrite nth_error_app1 in H.
    - rewrite nth_error_app2 in H by assumption. apply nth_error_In, repeat_spec in H. discriminate. }
  split.
  - intros p Hp. apply In_nth_error in Hp. destruct Hp as (i & Hi). apply HP. eapply nth_error_In; eauto.
  - intros i j p Hi Hj. eauto.
Qed.
Lemma proper_addSlot h t t1 li : proper h t -> addSlot t = Ok (t1, li) -> proper h t1.
Proof.
  intros H E. unfold addSlot in E. rinv. injection E as <- <-. destruct b; [assumption|]. now apply proper_grown.
Qed.

Lemma deref_alloc h n t : pointers_in h t -> deref (h ++ [n]) t = deref h t.
Proof. intros H. apply deref_ext. intros p Hp. apply H in Hp. now rewrite nth_error_app1. Qed.

Lemma updateH_value h t li l : proper h t ->
  rmap (fun r => deref (fst r) (snd r)) (updateH h t li l) = update (deref h t) li (NLeaf l) /\
  (forall h' t', updateH h t li l = Ok (h', t') -> proper h' t' /\ h' = h ++ [NLeaf l]).
Proof.
  intros [HP HA]. unfold updateH, alloc.
  assert (HP' : pointers_in (h ++ [NLeaf l]) t) by (intros p Hp; rewrite app_length; apply HP in Hp; lia).
  assert (G : forall t', update t li (length h) = Ok t' -> proper (h ++ [NLeaf l]) t').
  { intros t' E. unfold update in E. rinv. eapply proper_blanks; [|exact E]. split.
    - eapply pointers_setN; eauto. intros p Hp. injection Hp as <-. rewrite app_length. cbn. lia.
    - exact (apart_setN_fresh h t _ _ HP HA E0). }
  split.
  - rewrite <- (deref_alloc h (NLeaf l)) by assumption. rewrite (deref_map _ t) by assumption.
    assert (E : NLeaf l = at_heap (h ++ [NLeaf l]) (length h)) by (unfold at_heap; now rewrite nth_middle).
    pose proof (update_map (at_heap (h ++ [NLeaf l])) t li (length h)) as U. rewrite <- E in U. rewrite U, rmap_rbind. clear U E. cbn [rmap fst snd]. destruct (update t li (length h)) as [t'| | |] eqn:E; try reflexivity.
    cbn -[deref]. rewrite deref_map by exact (proj1 (G _ eq_refl)). reflexivity.
  - intros h' t' E. rinv. injection E as <- <-. auto.
Qed.

Lemma removeH_value h t li : proper h t -> rmap (deref h) (Tree.remove t li) = Tree.remove (deref h t) li.
Proof.
  intros H. rewrite (deref_map h t) by exact (proj1 H). rewrite remove_map. destruct (Tree.remove t li) as [t'| | |] eqn:E; try reflexivity.
  cbn -[deref]. rewrite deref_map; [reflexivity|]. eapply proj1, proper_remove; eauto.
Qed.

(** The loop marking a new leaf as unmerged *)
Lemma deref_upd h t x p n : proper h t -> getN t x = Ok (Some p) -> deref (upd h p n) t = upd (deref h t) (N.to_nat x) (Some n).
Proof.
  intros [HP HA] H. apply getN_ok in H. apply nth_error_ext. intros i. rewrite upd_nth, length_deref. unfold deref. rewrite !nth_error_map.
  destruct (Nat.eqb_spec (N.to_nat x) i) as [<-|Hne].
  - assert (N.to_nat x < length t)%nat by (apply nth_error_Some; congruence). rewrite (proj2 (Nat.ltb_lt _ _)) by assumption.
    rewrite H. cbn. rewrite upd_nth_eq; [reflexivity|]. apply HP. eapply nth_error_In; eauto.
  - destruct (nth_error t i) as [[q|]|] eqn:E; cbn; try reflexivity. f_equal. apply upd_nth_neq. intros ->. apply Hne. eapply HA; eauto.
Qed.
Lemma addUnmergedH_value li dp : forall h t, proper h t ->
  rmap (fun h' => deref h' t) (addUnmergedH h t li dp) = markLoop li (deref h t) dp /\
  (forall h', addUnmergedH h t li dp = Ok h' -> length h' = length h).
Proof.
  induction dp as [|x dp IH]; intros h t H; [cbn; split; [reflexivity|congruence]|].
  unfold addUnmergedH, markLoop. cbn [foldM]. fold (markLoop li). rewrite getN_deref.
  destruct (getN t x) as [[p|]| | |] eqn:E; cbn [rbind rmap]; try (split; [reflexivity|discriminate]).
  - assert (Hp : (p < length h)%nat) by (apply getN_ok, nth_error_In in E; now apply H).
    unfold index. destruct (nth_error h p) as [[l|q]|] eqn:Ep; cbn [rbind].
    + split; [reflexivity|discriminate].
    + assert (Hx : x < lenN (deref h t)) by (rewrite lenN_deref; eapply getN_lt; eauto). rewrite setN_in by assumption. cbn [rbind].
      rewrite <- (deref_upd h t x p) by assumption.
      destruct (IH (upd h p (NParent (addUnmergedLeaf q li))) t) as [H1 H2].
      { destruct H as [HP HA]. split; auto. intros r Hr. rewrite upd_length. auto. }
      split; [exact H1|]. intros h' Hh. rewrite (H2 h' Hh). apply upd_length.
    + apply nth_error_None in Ep. lia.
  - apply IH. assumption.
Qed.

Lemma addH_value h t l : proper h t ->
  rmap (fun r => deref (fst r) (snd r)) (addH h t l) = vadd (deref h t) l /\
  (forall h' t', addH h t l = Ok (h', t') -> proper h' t').
Proof.
  intros H. unfold addH. rewrite vadd_addAt. rewrite (deref_map h t) by exact (proj1 H). rewrite addSlot_map.
  destruct (addSlot t) as [[t1 li]| | |] eqn:E1; cbn [rbind rmap fst snd]; try (split; [reflexivity|discriminate]).
  assert (P1 : proper h t1) by (eapply proper_addSlot; eauto). rewrite <- (deref_map h t1) by exact (proj1 P1).
  unfold addAt. rewrite numLeaves_deref.
  destruct (directPath (numLeaves t1) (nodeIndexOf li)) as [dp| | |]; cbn [rbind rmap]; try (split; [reflexivity|discriminate]).
  destruct (addUnmergedH_value li dp h t1 P1) as [V L]. rewrite <- V.
  destruct (addUnmergedH h t1 li dp) as [h1| | |]; cbn [rbind rmap]; try (split; [reflexivity|discriminate]).
  unfold alloc. specialize (L h1 eq_refl).
  assert (P2 : proper h1 t1) by (destruct P1 as [HP HA]; split; auto; intros p Hp; rewrite L; auto).
  rewrite <- (deref_alloc h1 (NLeaf l)) by exact (proj1 P2).
  assert (P3 : pointers_in (h1 ++ [NLeaf l]) t1) by exact (proj1 (proper_more h1 [NLeaf l] t1 P2)). split.
  - rewrite (deref_map _ t1) by assumption. 
    assert (E : Some (NLeaf l) = option_map (at_heap (h1 ++ [NLeaf l])) (Some (length h1))) by (cbn; unfold at_heap; now rewrite nth_middle).
    pose proof (setN_map (option_map (at_heap (h1 ++ [NLeaf l]))) t1 (nodeIndexOf li) (Some (length h1))) as U. rewrite <- E in U. rewrite U, rmap_rbind. clear U E. destruct (setN t1 (nodeIndexOf li) (Some (length h1))) as [t2| | |] eqn:E2; try reflexivity.
    cbn -[deref]. rewrite deref_map; [reflexivity|]. eapply pointers_setN; eauto. intros p Hp. injection Hp as <-. rewrite app_length. cbn. lia.
  - intros h' t' E. rinv. injection E as <- <-. split.
    + eapply pointers_setN; eauto. intros p Hp. injection Hp as <-. rewrite app_length. cbn. lia.
    + eapply apart_setN_fresh; [exact (proj1 P2)|exact (proj2 P1)|eassumption].
Qed.

Definition value (ht : heap * ptree) : ratchetTree := deref (fst ht) (snd ht).

Lemma foldM_sim {S T X} (f : S -> X -> res S) (f' : T -> X -> res T) (h : S -> T) (P : S -> Prop) l :
  (forall s x, In x l -> P s -> rmap h (f s x) = f' (h s) x /\ forall s', f s x = Ok s' -> P s') ->
  forall s, P s -> rmap h (foldM f s l) = foldM f' (h s) l /\ forall s', foldM f s l = Ok s' -> P s'.
Proof.
  induction l as [|x l IH]; intros H s Hs; cbn.
  - split; [reflexivity|]. intros s' E. apply Ok_inj in E. now subst.
  - destruct (H s x (or_introl eq_refl) Hs) as [E1 E2]. rewrite <- E1, rbind_rmap, rmap_rbind.
    assert (IH' := IH (fun s x Hx => H s x (or_intror Hx))). split.
    + apply rbind_ext. intros s1 Es. apply IH'; auto.
    + intros s' E. rinv. eapply IH'; [|exact E]. auto.
Qed.

(** The three loops of apply *)
Definition updStepH (senders : list N) (ht : heap * ptree) (ip : nat * proposal) : res (heap * ptree) :=
  match snd ip with PUpdate l => let! s := index senders (fst ip) in updateH (fst ht) (snd ht) s l | _ => Ok ht end.
Definition updStep (senders : list N) (t : ratchetTree) (ip : nat * proposal) : res ratchetTree :=
  match snd ip with PUpdate l => let! s := index senders (fst ip) in update t s (NLeaf l) | _ => Ok t end.
Definition remStep {A} (t : list (option A)) (p : proposal) : res (list (option A)) :=
  match p with PRemove li => Tree.remove t li | _ => Ok t end.
Definition addStepH (ht : heap * ptree) (p : proposal) : res (heap * ptree) :=
  match p with PAdd k => addH (fst ht) (snd ht) (kp_leafNode k) | _ => Ok ht end.
Definition addStep (t : ratchetTree) (p : proposal) : res ratchetTree :=
  match p with PAdd k => vadd t (kp_leafNode k) | _ => Ok t end.
Definition numbered (props : list proposal) : list (nat * proposal) := combine (seq 0 (length props)) props.
Lemma applyH_eq h t props senders : applyH h t props senders =
  let! (h1, t1) := foldM (updStepH senders) (h, t) (numbered props) in
  let! t2 := foldM remStep t1 props in foldM addStepH (h1, t2) props.
Proof. reflexivity. Qed.
Lemma vapply_eq t props senders : vapply t props senders =
  let! t1 := foldM (updStep senders) t (numbered props) in
  let! t2 := foldM remStep t1 props in foldM addStep t2 props.
Proof. reflexivity. Qed.

Lemma applyH_value h t props senders : proper h t ->
  rmap value (applyH h t props senders) = vapply (deref h t) props senders /\
  (forall h' t', applyH h t props senders = Ok (h', t') -> proper h' t').
Proof.
  intros H. rewrite applyH_eq, vapply_eq.
  destruct (foldM_sim (updStepH senders) (updStep senders) value (fun ht => proper (fst ht) (snd ht)) (numbered props)) with (s := (h, t)) as [V1 P1]; auto.
  { intros [h0 t0] [i p] _ Hp. unfold updStepH, updStep. cbn [fst snd] in *. destruct p as [kp|l|rm|id|ri|ko|exts]; try (split; [reflexivity|intros s' E; apply Ok_inj in E; now subst]).
    destruct (index senders i) as [s| | |]; cbn [rbind rmap]; try (split; [reflexivity|discriminate]).
    destruct (updateH_value h0 t0 s l Hp) as [V W]. split; [exact V|]. intros [h' t'] E. apply W in E. apply E. }
  change (value (h, t)) with (deref h t) in V1. rewrite <- V1. clear V1.
  destruct (foldM (updStepH senders) (h, t) _) as [[h1 t1]| | |]; cbn [rbind rmap fst snd]; try (split; [reflexivity|discriminate]).
  specialize (P1 _ eq_refl). cbn [fst snd] in P1. change (value (h1, t1)) with (deref h1 t1).
  destruct (foldM_sim (@remStep nat) (@remStep node) (deref h1) (proper h1) props) with (s := t1) as [V2 P2]; auto.
  { intros s p _ Hs. unfold remStep. destruct p as [kp|l|rm|id|ri|ko|exts]; try (split; [reflexivity|intros s' E; apply Ok_inj in E; now subst]).
    split; [now apply removeH_value|]. intros s' E. eapply proper_remove; eauto. }
  rewrite <- V2. destruct (foldM remStep t1 props) as [t2| | |]; cbn [rbind rmap]; try (split; [reflexivity|discriminate]).
  specialize (P2 _ eq_refl).
  destruct (foldM_sim addStepH addStep value (fun ht => proper (fst ht) (snd ht)) props) with (s := (h1, t2)) as [V3 P3]; auto.
  { intros [h0 t0] p _ Hp. unfold addStepH, addStep. cbn [fst snd] in *. destruct p as [kp|l|rm|id|ri|ko|exts]; try (split; [reflexivity|intros s' E; apply Ok_inj in E; now subst]).
    destruct (addH_value h0 t0 (kp_leafNode kp) Hp) as [V W]. split; [exact V|]. intros [h' t'] E. now apply W in E. }
  split; [exact V3|]. intros h' t' E. apply P3 in E. exact E.
Qed.
