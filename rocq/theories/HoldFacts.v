(** Members keep the private keys of their nodes. *)
From Verif Require Export SpecHold RemovedFacts CommitTreeFacts PathFacts JoinPathFacts.

Section WithCrypto.
Context {C : crypto}.

(** ** By node numbers *)
Record keys_by_number (cs : N) (t : ratchetTree) (priv : privTree) (li : N) : Prop := {
  kn_length : length priv = length t;
  kn_known : forall x n, own_node li x -> nth_error t (N.to_nat x) = Some (Some n) ->
      match n with NParent pn => ~ In li (pn_unmergedLeaves pn) | NLeaf _ => True end -> exists key, nth_error priv (N.to_nat x) = Some (Some key);
  kn_match : forall x n key, nth_error t (N.to_nat x) = Some (Some n) -> nth_error priv (N.to_nat x) = Some (Some key) -> opens cs key (node_encryptionKey n);
  kn_place : own_keys li priv
}.

Lemma holds_number cs k t priv li : shaped k t -> li < leaf_count k -> li < 2 ^ 31 -> holds_keys cs k t priv li <-> keys_by_number cs t priv li.
Proof.
  intros Sh Hk Hli. pose proof (shaped_full _ _ Sh) as F. pose proof F as [Fk Fl]. split.
  - intros [H1 H2 H3 H4]. assert (L : length priv = length t) by (unfold lenN in H1; lia). assert (Fp : full k priv) by (split; [assumption|]; congruence). constructor; auto.
    + intros x n Ho Hx Hn. destruct (in_array k t x n F Hx) as (p & Hp & -> & Ep). apply own_in_tree in Ho; auto. destruct Ho as [_ Ho].
      destruct (at_path k priv p) as [key|] eqn:E; [exists key; now apply at_path_nth|]. exfalso. apply (H2 p n); auto. apply aos_above in Ho. destruct Ho as [->|Ho]; [now left|now right].
    + intros x n key Hx Hkey. destruct (in_array k t x n F Hx) as (p & Hp & -> & Ep). apply (H3 p n key); auto. now apply at_path_nth.
    + intros x key Hx. assert (Hx' : x < node_count k). { rewrite <- (proj2 Fp). unfold lenN. assert (N.to_nat x < length priv)%nat by (apply nth_error_Some; congruence). lia. }
      destruct (number_onto k x Hx') as (p & Hp & <-). apply own_in_tree; auto. split; [assumption|]. apply H4; auto. intros E. apply at_path_nth in Hx. congruence.
  - intros [H1 H2 H3 H4]. constructor.
    + unfold lenN. now rewrite H1.
    + intros p n Hp Ep Hn. assert (Ho : own_node li (number k p)) by (apply own_in_tree; auto; split; [assumption|]; apply aos_above; destruct Hn as [->|[X _]]; auto).
      destruct (H2 (number k p) n Ho) as [key E].
      * now apply at_path_nth.
      * destruct Hn as [->|[_ X]]; [|exact X]. rewrite (shaped_leaf k) in Ep by assumption. destruct (leaf_at t li); [|discriminate]. injection Ep as <-. exact I.
      * apply at_path_nth in E. congruence.
    + intros p n key Hp Ep Ekey. apply (H3 (number k p) n key); now apply at_path_nth.
    + intros p Hp Hn. destruct (at_path k priv p) as [key|] eqn:E; [|congruence]. apply at_path_nth in E. apply H4 in E. apply own_in_tree in E; auto. apply E.
Qed.

(** ** Trees whose parent nodes are those of another, some blank and some with
    more unmerged leaves *)
Definition parents_from (t t' : ratchetTree) : Prop :=
  forall i pn', nth_error t' i = Some (Some (NParent pn')) ->
    exists pn, nth_error t i = Some (Some (NParent pn)) /\ pn_encryptionKey pn' = pn_encryptionKey pn /\ incl (pn_unmergedLeaves pn) (pn_unmergedLeaves pn').

Lemma from_refl t : parents_from t t.
Proof. intros i pn H. exists pn. splits; auto. apply incl_refl. Qed.
Lemma from_trans a b c : parents_from a b -> parents_from b c -> parents_from a c.
Proof.
  intros H1 H2 i pn H. destruct (H2 i pn H) as (p2 & E2 & K2 & I2). destruct (H1 i p2 E2) as (p1 & E1 & K1 & I1). exists p1. splits; auto; [congruence|].
  eapply incl_tran; eauto.
Qed.
Lemma from_paths k t t' : full k t -> full k t' ->
  (forall p pn', in_tree k p -> at_path k t' p = Some (NParent pn') ->
     exists pn, at_path k t p = Some (NParent pn) /\ pn_encryptionKey pn' = pn_encryptionKey pn /\ incl (pn_unmergedLeaves pn) (pn_unmergedLeaves pn')) ->
  parents_from t t'.
Proof.
  intros F F' H i pn' E. rewrite <- (Nat2N.id i) in E. destruct (in_array k t' _ _ F' E) as (p & Hp & Ei & Ep).
  destruct (H p pn' Hp Ep) as (pn & E1 & R). exists pn. split; [|exact R]. apply at_path_nth in E1. rewrite <- Ei, Nat2N.id in E1. exact E1.
Qed.
Lemma from_fewer t t' : (forall i n, nth_error t' i = Some (Some n) -> nth_error t i = Some (Some n)) -> parents_from t t'.
Proof. intros H i pn' E. exists pn'. splits; auto. apply incl_refl. Qed.
Lemma from_unmerged t t' : same_but_unmerged t t' -> parents_from t t'.
Proof.
  intros H. unfold same_but_unmerged in H. induction H as [|o o' t t' Ho H IH]; intros [|i] pn' E; cbn [nth_error] in *; try discriminate.
  - injection E as ->. destruct o as [[l|pn]|]; cbn in Ho; try contradiction. destruct Ho as (us & ->). exists pn. splits; auto. cbn. apply incl_appl, incl_refl.
  - apply IH. exact E.
Qed.

Lemma from_replaced k t t' j n : full k t -> replaced k t t' j n -> match n with Some (NParent _) => False | _ => True end -> parents_from t t'.
Proof.
  intros F (F' & Hj & H1 & H2 & H3) Hn. apply (from_paths k); auto. intros p pn' Hp E. destruct (path_eq_dec p (leafPath k j)) as [->|N1].
  - rewrite H1 in E. rewrite E in Hn. contradiction.
  - destruct (above_dec p (leafPath k j)) as [Ha|Ha]; [rewrite H2 in E by auto; discriminate|]. rewrite H3 in E by auto. exists pn'. splits; auto. apply incl_refl.
Qed.
Lemma from_added k t t' j l : full k t -> added k t t' j l -> parents_from t t'.
Proof.
  intros F (F' & Hj & H1 & H2 & H3). apply (from_paths k); auto; [apply F'|]. intros p pn' Hp E. destruct (path_eq_dec p (leafPath k j)) as [->|N1]; [congruence|].
  destruct (above_dec p (leafPath k j)) as [Ha|Ha].
  - rewrite H2 in E by auto. destruct (at_path k t p) as [[l'|pn]|]; try discriminate. injection E as <-. exists pn. splits; auto. cbn. apply incl_appl, incl_refl.
  - rewrite H3 in E by auto. exists pn'. splits; auto. apply incl_refl.
Qed.
Lemma from_truncated k t t' : truncated k t t' -> parents_from t t'.
Proof.
  intros [[-> _]|(k' & _ & _ & -> & _)]; apply from_fewer; intros i n E; [destruct i; discriminate|]. now apply (fewer_firstn t) in E.
Qed.
Lemma from_each {A} (step : ratchetTree -> A -> ratchetTree -> Prop) : (forall t x t', step t x t' -> parents_from t t') ->
  forall t l t', one_by_one step t l t' -> parents_from t t'.
Proof. intros H t l t' O. induction O; [apply from_refl|]. eapply from_trans; eauto. Qed.
Lemma from_proposals t ps t' : after_proposals t ps t' -> parents_from t t'.
Proof.
  intros (t1 & t2 & H1 & H2 & H3). eapply from_trans; [|eapply from_trans].
  - eapply (from_each updated); [|exact H1]. intros a [j n] b (k & Sh & R). eapply from_replaced; [exact (shaped_full _ _ Sh)|exact R|exact I].
  - eapply (from_each removed); [|exact H2]. intros a j b (k & u & Sh & R & T). eapply from_trans; [|eapply from_truncated; exact T].
    eapply from_replaced; [exact (shaped_full _ _ Sh)|exact R|exact I].
  - eapply (from_each SpecCommitTree.joined); [|exact H3]. intros a l b (k & u & j & _ & Sh & A & D). eapply from_trans; [|eapply from_added; [exact (shaped_full _ _ Sh)|exact A]].
    destruct D as [->|[-> _]]; [apply from_refl|]. apply from_fewer. intros i n. apply (fewer_grown a).
Qed.

(** ** What is carried over *)
Lemma carried cs t t' priv p li l l' : keys_by_number cs t priv li -> parents_from t t' -> well_shaped t' -> li < 2 ^ 31 ->
  leaf_at t li = Some l -> leaf_at t' li = Some l' -> ln_encryptionKey l' = ln_encryptionKey l ->
  carryPriv (length t) (length t') priv = Ok p -> keys_by_number cs t' p li.
Proof.
  intros [H1 H2 H3 H4] HF W Hli Hl Hl' Hk Hc. pose proof (carryPriv_keys li _ _ _ _ Hc H4) as Ho. pose proof (carryPriv_len _ _ _ _ Hc) as Hlen.
  assert (Low : forall i, (i < length t)%nat -> (i < length t')%nat -> nth_error p i = nth_error priv i).
  { intros i A B. unfold carryPriv in Hc. destruct (Nat.ltb_spec (length priv) (Nat.min (length t) (length t'))); [discriminate|]. apply Ok_inj in Hc. subst p.
    rewrite nth_error_app1 by (rewrite firstn_length; lia). clear -A B. assert (X : (i < Nat.min (length t) (length t'))%nat) by lia. revert X. generalize (Nat.min (length t) (length t')) as m. intros m X. revert i A B X priv.
    induction m as [|m IH]; intros i A B X priv; [lia|]. destruct priv as [|x priv]; [reflexivity|]. destruct i as [|i]; [reflexivity|]. cbn. apply IH; lia. }
  assert (Src : forall x n', own_node li x -> nth_error t' (N.to_nat x) = Some (Some n') -> exists n, nth_error t (N.to_nat x) = Some (Some n) /\ node_encryptionKey n' = node_encryptionKey n /\
     match n', n with NParent pn', NParent pn => incl (pn_unmergedLeaves pn) (pn_unmergedLeaves pn') | NLeaf _, NLeaf _ => True | _, _ => False end).
  { intros x n' Ox E. destruct n' as [m|pn'].
    - assert (x = 2 * li).
      { destruct W as [->|(k & Sh)]; [destruct (N.to_nat x); discriminate|]. destruct (in_array k t' x _ (shaped_full _ _ Sh) E) as (q & Hq & -> & Eq).
        apply own_in_tree in Ox; auto; [|apply Sh]. destruct Ox as [O1 O2]. pose proof (proj2 Sh q _ Hq Eq) as Pl. cbn in Pl. apply aos_same in O2; [|now rewrite leafPath_length].
        rewrite O2. now apply leafPath_number. }
      subst x. unfold leaf_at in Hl, Hl'. rewrite E in Hl'. injection Hl' as ->. destruct (nth_error t (N.to_nat (2 * li))) as [[[m|]|]|]; try discriminate. injection Hl as ->.
      exists (NLeaf l). splits; auto.
    - destruct (HF _ _ E) as (pn & E1 & K1 & I1). exists (NParent pn). splits; auto. }
  assert (Sz : forall {A} (u : list A) i x, nth_error u i = Some x -> (i < length u)%nat) by (intros A u i x E; apply nth_error_Some; congruence).
  constructor; auto.
  - intros x n' Ox E Hn. destruct (Src x n' Ox E) as (n & E1 & _ & M). rewrite Low by eauto. apply (H2 x n Ox E1). destruct n' as [m'|pn'], n as [m|pn]; try contradiction; auto.
  - intros x n' key E Ek. pose proof (Ho x key Ek) as Ox. destruct (Src x n' Ox E) as (n & E1 & -> & _). rewrite Low in Ek by eauto. now apply (H3 x n key).
Qed.

(** ** Paths *)
Lemma derivePath_inv cs k t : crypto_ok C -> full k t -> forall l priv s priv' s', NoDup l -> (forall a, In a l -> in_tree k a) -> full k priv ->
  derivePath cs t priv s (map (number k) l) = Ok (priv', s') ->
  full k priv' /\
  (forall a, In a l -> exists n key, at_path k t a = Some n /\ at_path k priv' a = Some key /\ opens cs key (node_encryptionKey n)) /\
  (forall q, in_tree k q -> ~ In q l -> at_path k priv' q = at_path k priv q).
Proof.
  intros OK F. induction l as [|a l IH]; intros priv s priv' s' Hd Hin Fp H; cbn [map derivePath] in H.
  - apply Ok_inj in H. apply pair_equal_spec in H. destruct H as [<- _]. splits; auto. intros a [].
  - apply rbind_ok in H. destruct H as (s1 & _ & H). apply rbind_ok in H. destruct H as (o & Eo & H).
    assert (Ha : in_tree k a) by (apply Hin; now left). rewrite (at_path_getN k) in Eo by assumption. apply Ok_inj in Eo. subst o.
    destruct (at_path k t a) as [n|] eqn:En; [|discriminate]. apply rbind_ok in H. destruct H as (key & Ek & H). apply rbind_ok in H. destruct H as (priv1 & Es & H).
    destruct (set_path_inv _ _ _ _ _ Fp Ha Es) as (F1 & A1 & O1). inversion Hd as [|? ? Hna Hd']. subst.
    destruct (IH priv1 s1 priv' s' Hd' (fun x Hx => Hin x (or_intror Hx)) F1 H) as (F' & K & O). splits; auto.
    + intros x [<-|Hx]; [|auto]. exists n, key. splits; auto; [rewrite O by auto; exact A1|]. apply nodePriv_iff in Ek. now apply (node_keys_opens cs s1).
    + intros q Hq Hn. rewrite O, O1; auto; intros Hx; apply Hn; [left; now symmetry|now right].
Qed.

Lemma path_holds cs k t t' li me up a b s1 s2 c l1 l2 priv priv2 nA keyA : shaped k t -> merged cs k t t' li up -> me < leaf_count k ->
  leafPath k li = a ++ b :: s1 -> leafPath k me = a ++ negb b :: s2 -> filtered k t (leafPath k li) = l1 ++ (a, c) :: l2 ->
  holds_keys cs k t priv me -> full k priv2 ->
  at_path k t' a = Some nA -> at_path k priv2 a = Some keyA -> opens cs keyA (node_encryptionKey nA) ->
  (forall x, In x (map fst l2) -> exists n key, at_path k t' x = Some n /\ at_path k priv2 x = Some key /\ opens cs key (node_encryptionKey n)) ->
  (forall q, in_tree k q -> q <> a -> ~ In q (map fst l2) -> at_path k priv2 q = at_path k priv q) ->
  holds_keys cs k t' priv2 me.
Proof.
  intros Sh M Hr E1 E2 Efd [K1 K2 K3 K4] F2 Ea KA OA KD OD. pose proof M as (F' & Hli & A' & _ & B' & O'). pose proof (proj1 F') as Hk.
  assert (Har : above a (leafPath k me)) by (exists (negb b), s2; assumption).
  assert (Hal : above a (leafPath k li)) by (exists b, s1; assumption).
  assert (Hsort : StronglySorted (fun x y => above (fst y) (fst x)) (filtered k t (leafPath k li))) by apply filtered_sorted.
  assert (Habove : forall x, In x (map fst (filtered k t (leafPath k li))) -> above x (leafPath k li)) by (intros x; apply filtered_above).
  set (FD := filtered k t (leafPath k li)) in *. rewrite Efd in Hsort, Habove. apply sorted_split in Hsort. destruct Hsort as [S1 S2].
  assert (Hne : me <> li). { intros ->. rewrite E1 in E2. apply app_inv_head in E2. injection E2 as E2 _. now destruct b. }
  assert (Up : forall x, In x (map fst l2) -> above x a).
  { intros x Hx. apply in_map_iff in Hx. destruct Hx as (y & <- & Hy). apply (S2 y Hy). }
  assert (Low : forall x, In x (map fst l1) -> above a x).
  { intros x Hx. apply in_map_iff in Hx. destruct Hx as (y & <- & Hy). apply (S1 y Hy). }
  assert (Away : forall x, in_tree k x -> ancestor_or_self x (leafPath k me) -> x <> leafPath k li /\ ~ In x (map fst l1)).
  { intros x Hx Hxr. split.
    - intros ->. apply aos_same in Hxr; [|now rewrite !leafPath_length]. apply leafPath_inj in Hxr; auto.
    - intros Hl1. destruct (Low x Hl1) as (d & w & ->). assert (Hxl : above (a ++ d :: w) (leafPath k li)) by (apply Habove; rewrite map_app; apply in_app_iff; now left).
      destruct Hxl as (d' & w' & Ex). rewrite E1, <- app_assoc in Ex. apply app_inv_head in Ex. cbn [app] in Ex. injection Ex as Ex _. subst d.
      destruct Hxr as (w2 & Ey). rewrite E2, <- app_assoc in Ey. apply app_inv_head in Ey. cbn [app] in Ey. injection Ey as Ey _. now destruct b. }
  assert (Cases : forall x n, in_tree k x -> at_path k t' x = Some n ->
            x = leafPath k li \/ In x (map fst l1) \/ (x = a \/ In x (map fst l2)) \/ at_path k t x = Some n /\ ~ In x (map fst l2) /\ x <> a).
  { intros x n Hx Ex. destruct (path_eq_dec x (leafPath k li)) as [->|Nx]; [now left|]. right. destruct (above_dec x (leafPath k li)) as [Hab|Nab].
    - destruct (in_dec path_eq_dec x (map fst FD)) as [Hi|Hi]; [|rewrite B' in Ex by auto; discriminate].
      rewrite Efd, map_app in Hi. apply in_app_iff in Hi. cbn [map fst] in Hi. destruct Hi as [Hi|[Hi|Hi]]; auto.
    - right. right. rewrite <- O' by auto. splits; auto.
      + intros Hi. apply Nab. apply Habove. rewrite map_app. apply in_app_iff. right. now right.
      + intros ->. contradiction. }
  constructor.
  + rewrite (proj2 F2). symmetry. apply F'.
  + intros x n Hx Ex Hkn. assert (Hxr : ancestor_or_self x (leafPath k me)) by (apply aos_above; destruct Hkn as [->|[X _]]; auto).
    destruct (Away x Hx Hxr) as [W1 W2]. destruct (Cases x n Hx Ex) as [X|[X|[[->|X]|(X & Y & Z)]]]; try contradiction.
    * congruence.
    * destruct (KD x X) as (? & ? & _ & -> & _). discriminate.
    * rewrite OD by auto. now apply (K2 x n).
  + intros x n key' Hx Ex Ekey. destruct (Cases x n Hx Ex) as [X|[X|[[->|X]|(X & Y & Z)]]].
    * exfalso. subst x. rewrite OD in Ekey; auto.
      -- destruct (Away (leafPath k li) Hx); auto. apply K4; auto. congruence.
      -- intros <-. eapply above_not_self; eauto.
      -- intros Hi. apply Up in Hi. eapply (above_not_self (leafPath k li)). eapply above_trans; eauto.
    * exfalso. pose proof (Low x X) as Y. rewrite OD in Ekey; auto.
      -- destruct (Away x Hx); auto. apply K4; auto. congruence.
      -- intros ->. eapply above_not_self; eauto.
      -- intros Hi. apply Up in Hi. eapply (above_not_self x). eapply above_trans; eauto.
    * congruence.
    * destruct (KD x X) as (n' & key2 & X1 & X2 & X3). congruence.
    * rewrite OD in Ekey by auto. now apply (K3 x n).
  + intros x Hx Hp. destruct (path_eq_dec x a) as [->|Nx]; [now apply aos_above; right|].
    destruct (in_dec path_eq_dec x (map fst l2)) as [Hi|Hi].
    * apply aos_above. right. eapply above_trans; [now apply Up|assumption].
    * apply K4; auto. rewrite OD in Hp by auto. exact Hp.
Qed.

Lemma nodup_tail {A} (l l' : list A) : NoDup (l ++ l') -> NoDup l'.
Proof. induction l as [|x l IH]; intros H; [exact H|]. inversion H; auto. Qed.

Lemma decrypt_holds cs k t t' ctx li me up priv z priv' : crypto_ok C -> shaped k t -> shaped k t' -> merged cs k t t' (designated li) up -> me < 2 ^ 31 ->
  holds_keys cs k t priv me -> decryptPathSecrets cs t' ctx li me up priv = Ok (z, priv') -> holds_keys cs k t' priv' me.
Proof.
  intros OK Sh Sh' M Hme HK Hd. pose proof (shaped_full _ _ Sh') as F'. assert (Fp : full k priv) by (split; [apply F'|]; rewrite (hk_length _ _ _ _ _ HK); apply Sh).
  destruct (decrypt_cases_path cs k t' ctx li me up priv Sh' (proj1 (proj2 M)) Hme) as [(e & E)|(a & b & s1 & s2 & upn & tail & Hmk & E1 & E2 & _ & (c & m1 & m2 & Ef & ->) & E)]; [congruence|].
  rewrite E in Hd. rewrite openPath_eq in Hd. apply rbind_ok in Hd. destruct Hd as (R & _ & Hd). apply rbind_ok in Hd. destruct Hd as ([] & _ & Hd).
  apply rbind_ok in Hd. destruct Hd as (o & _ & Hd). destruct o as [[ri np]|]; [|discriminate].
  apply rbind_ok in Hd. destruct Hd as (ct & _ & Hd). apply rbind_ok in Hd. destruct Hd as (s & _ & Hd). apply rbind_ok in Hd. destruct Hd as (o & Eo & Hd).
  assert (Efd : filtered k t (leafPath k (designated li)) = m1 ++ (a, c) :: m2).
  { rewrite <- Ef. apply filtered_ext; [apply leafPath_in|]. intros q Q1 Q2 Q3. symmetry. now apply M. }
  assert (Habove : forall x, In x (map fst (filtered k t (leafPath k (designated li)))) -> above x (leafPath k (designated li))) by (intros x; apply filtered_above).
  pose proof (filtered_NoDup k t (leafPath k (designated li))) as Hnd.
  assert (Hin : forall x, In x (map fst (filtered k t (leafPath k (designated li)))) -> in_tree k x) by (intros x Hx; eapply above_in; [apply Habove; exact Hx|apply leafPath_in]).
  rewrite Efd, map_app in Hnd, Hin. cbn [map fst] in Hnd, Hin.
  assert (Ha : in_tree k a) by (apply Hin, in_elt).
  rewrite (at_path_getN k) in Eo by assumption. apply Ok_inj in Eo. subst o. destruct (at_path k t' a) as [nA|] eqn:EnA; [|discriminate].
  apply rbind_ok in Hd. destruct Hd as (keyA & EkA & Hd). apply rbind_ok in Hd. destruct Hd as (priv1 & Eset & Hd). apply rbind_ok in Hd. destruct Hd as ([priv2 s'] & Ed & Hd).
  apply rbind_ok in Hd. destruct Hd as (zz & _ & Hd). apply Ok_inj in Hd. apply pair_equal_spec in Hd. destruct Hd as [_ <-].
  destruct (set_path_inv _ _ _ _ _ Fp Ha Eset) as (F1 & A1 & O1).
  pose proof (NoDup_remove_2 _ _ _ Hnd) as Hna. apply NoDup_remove_1 in Hnd.
  pose proof (nodup_tail _ _ Hnd) as Hnd2.
  assert (Hin2 : forall x, In x (map fst m2) -> in_tree k x) by (intros x Hx; apply Hin, in_app_iff; right; now right).
  destruct (derivePath_inv cs k t' OK F' _ _ _ _ _ Hnd2 Hin2 F1 Ed) as (F2 & KD & OD).
  assert (Hna2 : ~ In a (map fst m2)) by (intros X; apply Hna; apply in_app_iff; now right).
  eapply (path_holds cs k t t' (designated li) me up a b s1 s2 c m1 m2 priv priv2 nA keyA); eauto.
  - rewrite OD by auto. exact A1.
  - apply nodePriv_iff in EkA. now apply (node_keys_opens cs s).
  - intros q Q1 Q2 Q3. rewrite OD, O1; auto.
Qed.

(** ** Operations *)
Lemma holds_its_number g : member_state g -> well_shaped (gr_value g) ->
  (holds_its_keys g <-> keys_by_number (gc_cipherSuite (gr_context g)) (gr_value g) (gr_privTree g) (gr_myLeafIndex g)).
Proof.
  intros M W. pose proof (ms_index _ M) as Hi. pose proof (ms_in _ M) as Hin. split.
  - intros (k & Sh & H). apply (holds_number _ k); auto. eapply member_in_array; eauto.
  - intros H. destruct W as [E|(k & Sh)]; [rewrite E in Hin; unfold leaf_at in Hin; destruct (N.to_nat _); now destruct Hin|].
    exists k. split; [assumption|]. apply (holds_number _ k); auto. eapply member_in_array; eauto.
Qed.

Lemma carry_same (t : ratchetTree) priv : length priv = length t -> carryPriv (length t) (length t) priv = Ok priv.
Proof.
  intros H. unfold carryPriv. rewrite Nat.min_id. destruct (Nat.ltb_spec (length priv) (length t)); [lia|].
  rewrite Nat.sub_diag. cbn [repeat]. rewrite app_nil_r, <- H, firstn_all. reflexivity.
Qed.

Lemma holds_unmerged g h : sane g -> member_state g -> member_state (withHeap g h) -> same_but_unmerged (gr_value g) (gr_value (withHeap g h)) ->
  holds_its_keys g -> holds_its_keys (withHeap g h).
Proof.
  intros Sa M M' S H. pose proof (sane_shape _ Sa) as W. pose proof (same_but_unmerged_shaped _ _ S W) as W'.
  apply holds_its_number in H; auto. apply holds_its_number; auto.
  destruct (leaf_at (gr_value g) (gr_myLeafIndex g)) as [l|] eqn:El; [|now destruct (ms_in _ M)].
  eapply (carried _ (gr_value g)); [exact H|now apply from_unmerged|exact W'|apply (ms_index _ M)|exact El| |reflexivity|].
  - change (gr_myLeafIndex (withHeap g h)) with (gr_myLeafIndex g). rewrite (same_leaf _ _ _ S). exact El.
  - rewrite (same_but_unmerged_length _ _ S). apply carry_same. apply (kn_length _ _ _ _ H).
Qed.

Lemma commit_holds g ac ids psks now g' : crypto_ok C -> sane g -> member_state g -> processCommit g ac ids psks now = (g', Ok tt) ->
  same_leaf_key g g' -> holds_its_keys g -> holds_its_keys g'.
Proof.
  intros OK Sa M H Hk HK. pose proof (proj1 (commit_state _ _ _ _ _ _ Sa M H)) as M'.
  apply holds_its_number in HK; [|assumption|apply (sane_shape _ Sa)]. apply processCommit_ok in H. destruct H as (c & proposals & senders & h & t & Hb & Hck & Ha & Hf).
  destruct (checkCommit_pairs _ _ _ _ _ Hck) as (ps & Hc & -> & -> & Hn).
  pose proof (proj1 (sane_consistent _ Sa)) as Pr. destruct (applyH_value_ok _ _ _ _ _ _ Pr Ha) as [V P1]. fold (gr_value g) in V.
  pose proof (vapply_shape _ _ _ _ (sane_shape _ Sa) V) as W1.
  pose proof (from_proposals _ _ _ (vapply_one_by_one _ _ _ (sane_shape _ Sa) V)) as PF.
  destruct (finishCommit_ok _ _ _ _ _ _ _ _ _ Hf) as (priv & nh & h1 & t1 & th & cs & priv1 & ctx & it & psk & es & ini & Ec & _ & Hp & Hne & ->).
  assert (Ecs : gc_cipherSuite ctx = gc_cipherSuite (gr_context g)) by (apply nextEpoch_ok in Hne; destruct Hne as (? & ? & _ & -> & _); reflexivity).
  destruct (leaf_at (gr_value g) (gr_myLeafIndex g)) as [l|] eqn:El; [|now destruct (ms_in _ M)].
  unfold same_leaf_key in Hk. rewrite El in Hk. cbn [option_map] in Hk. unfold gr_value in Hk at 1. cbn [gr_heap gr_tree gr_myLeafIndex] in Hk.
  assert (Car : forall l', leaf_at (deref h t) (gr_myLeafIndex g) = Some l' -> ln_encryptionKey l' = ln_encryptionKey l ->
    keys_by_number (gc_cipherSuite (gr_context g)) (deref h t) priv (gr_myLeafIndex g)).
  { intros l' El' Ek'. eapply (carried _ (gr_value g)); [exact HK|exact PF|exact W1|apply (ms_index _ M)|exact El|exact El'|exact Ek'|].
    unfold gr_value. rewrite !length_deref. exact Ec. }
  destruct (c_path c) as [up|].
  - apply processPath_all in Hp. destruct Hp as (Hm & _ & Hd). destruct W1 as [W1|(k & Sh)].
    { exfalso. unfold mergeUpdatePathH in Hm. apply rbind_ok in Hm. destruct Hm as (v & Hm & _). rewrite W1 in Hm. now apply merge_nil in Hm. }
    destruct (mergeH_shaped _ _ _ _ _ _ _ _ P1 Sh Hm) as [Sh' Mg]. set (li := sender_leafIndex (fc_sender (ac_content ac))) in *.
    assert (Hme : gr_myLeafIndex g <> designated li /\ gr_myLeafIndex g < leaf_count k).
    { destruct (decrypt_cases_path (gc_cipherSuite (gr_context g)) k (deref h1 t1) (nextContext (gr_context g) th (gc_confirmedTranscriptHash (gr_context g))) li (gr_myLeafIndex g) up priv Sh' (proj1 (proj2 Mg)) (ms_index _ M)) as [(e & E)|(a & b & s1 & s2 & upn & tail & Hmk & E1 & E2 & _)]; [congruence|].
      split; [|assumption]. intros E. rewrite E, E1 in E2. apply app_inv_head in E2. injection E2 as E2 _. now destruct b. }
    destruct (merged_leaf _ _ _ _ _ _ Sh Sh' Mg) as [_ E2]. rewrite E2 in Hk by apply Hme.
    destruct (leaf_at (deref h t) (gr_myLeafIndex g)) as [l'|] eqn:El'; [|discriminate]. injection Hk as Hk. specialize (Car l' eq_refl Hk).
    exists k. split; [exact Sh'|]. cbn [gr_context gr_privTree gr_myLeafIndex]. rewrite Ecs. unfold gr_value. cbn [gr_heap gr_tree].
    eapply (decrypt_holds _ k (deref h t)); [exact OK|exact Sh|exact Sh'|exact Mg|apply (ms_index _ M)| |exact Hd]. apply holds_number; auto; [apply Hme|apply (ms_index _ M)].
  - destruct Hp as (-> & -> & _ & _ & ->). destruct (leaf_at (deref h t) (gr_myLeafIndex g)) as [l'|] eqn:El'; [|discriminate]. injection Hk as Hk.
    apply holds_its_number; [exact M'|exact W1|]. cbn [gr_context gr_privTree gr_myLeafIndex]. rewrite Ecs. now apply (Car l').
Qed.

Lemma stopped_same g ac ids psks now g' r : processCommit g ac ids psks now = (g', r) -> r <> Ok tt -> (forall e, r <> Err e) -> g' = g.
Proof.
  intros H Hr He. unfold processCommit in H. destruct (fc_body (ac_content ac)) as [?|?|c]; try congruence.
  destruct (checkCommit _ _ _) as [[ps ss]|?|?|]; try congruence. destruct (applyH _ _ _ _) as [[h t]|?|?|]; try congruence.
  destruct (finishCommit _ _ _ _ _ _ _ _) as [g1|?|?|]; try congruence.
Qed.

Theorem message_holds g raw now g' r : crypto_ok C -> obtained g -> holds_its_keys g -> unmarshalAndProcessMessage g raw now = (g', r) ->
  same_leaf_key g g' -> holds_its_keys g'.
Proof.
  intros OK O HK H Hk. pose proof (obtained_sane g O) as Sa. pose proof (obtained_state g O) as M.
  pose proof (message_state _ _ _ _ _ Sa M H) as M'.
  apply acted_on_or in H. destruct H as [[-> _]|(ac & _ & _ & _ & H)]; [exact HK|].
  destruct (fc_body (ac_content ac)) as [d|p|c].
  - destruct H as (-> & _). exact HK.
  - unfold noData, processProposal in H. assert (E : g' = g \/ exists ps, g' = withPending g ps).
    { destruct (fc_body (ac_content ac)) as [|p'|]; cbn [fst snd] in H; try (left; congruence). destruct (generateProposalRef _ _); cbn [fst snd] in H; try (left; congruence). right. eexists. apply pair_equal_spec in H. now destruct H as [-> _]. }
    destruct E as [->|[ps ->]]; exact HK.
  - unfold noData in H. destruct (processCommit g ac [] [] now) as [g1 r1] eqn:E. cbn [fst snd] in H. apply pair_equal_spec in H. destruct H as [-> _].
    destruct r1 as [[]|e|p|].
    + eapply commit_holds; eauto.
    + destruct (processCommit_error _ _ _ _ _ _ _ (proj1 (sane_consistent _ Sa)) E) as (h & -> & S). now apply holds_unmerged.
    + rewrite (stopped_same _ _ _ _ _ _ _ E); [exact HK|discriminate|discriminate].
    + rewrite (stopped_same _ _ _ _ _ _ _ E); [exact HK|discriminate|discriminate].
Qed.
Theorem welcome_holds g kps rs ri rh rg g' r : obtained g -> holds_its_keys g -> createWelcome g kps rs ri rh rg = (g', r) -> holds_its_keys g'.
Proof.
  intros O HK H. pose proof (obtained_sane g O) as Sa. pose proof (obtained_state g O) as M. pose proof (welcome_state _ _ _ _ _ _ _ _ Sa M H) as M'.
  destruct (createWelcome_frame g kps rs ri rh rg g' r (proj1 (sane_consistent _ Sa)) H) as (h & -> & S). now apply holds_unmerged.
Qed.

(** ** The first state *)
Lemma findLeafFrom_same_key t l : forall lis me, findLeafFrom t l lis = Ok (Some me) -> exists n, getLeaf t me = Ok (Some n) /\ ln_encryptionKey n = ln_encryptionKey l.
Proof.
  induction lis as [|li lis IH]; intros me; cbn [findLeafFrom]; [discriminate|]. intros H. rinv. destruct v as [n|]; [|auto].
  destruct (bytes_eqb (ln_encryptionKey n) (ln_encryptionKey l)) eqn:B; cbn [negb] in H; [|auto].
  destruct (putLeafNode l), (putLeafNode n); try discriminate. apply Ok_inj in H. destruct (bytes_eqb a a0) eqn:B2; [|discriminate]. injection H as <-.
  exists n. split; [assumption|now apply bytes_eqb_true].
Qed.

Lemma leaf_key_holds cs k t priv me l key : shaped k t -> me < leaf_count k -> leaf_at t me = Some l -> opens cs key (ln_encryptionKey l) ->
  setN (repeat None (length t)) (2 * me) (Some key) = Ok priv ->
  full k priv /\ at_path k priv (leafPath k me) = Some key /\ forall q, in_tree k q -> q <> leafPath k me -> at_path k priv q = None.
Proof.
  intros Sh Hme Hl Ho H. rewrite <- (leafPath_number k me Hme) in H. pose proof (shaped_full _ _ Sh) as F.
  assert (F0 : full k (repeat (@None bytes) (length t))) by (split; [apply F|]; unfold lenN; rewrite repeat_length; apply F).
  destruct (set_path_inv k _ _ _ _ F0 (leafPath_in _ _) H) as (F1 & A1 & O1). splits; auto. intros q Hq Hn. rewrite O1 by auto.
  unfold at_path. destruct (nth_error (repeat None (length t)) (N.to_nat (number k q))) as [o|] eqn:E; [|reflexivity]. apply nth_error_In, repeat_spec in E. exact E.
Qed.

Theorem created_holds groupID kpp rnd g : holds_private_keys kpp -> createGroup groupID kpp rnd = Ok g -> holds_its_keys g.
Proof.
  intros (d0 & Hd & _ & Hp & _) H. unfold createGroup in H. cbv zeta in H. rewrite first_leaf in H. cbn [rbind] in H.
  apply rbind_ok in H. destruct H as (th & _ & H). apply rbind_ok in H. destruct H as (d & _ & H). apply rbind_ok in H. destruct H as (tag & _ & H).
  apply rbind_ok in H. destruct H as (interim & _ & H). apply rbind_ok in H. destruct H as (psk & _ & H). apply rbind_ok in H. destruct H as (ini & _ & H). apply Ok_inj in H. subst g.
  exists 0%nat. unfold gr_value. cbn [gr_myLeafIndex gr_privTree gr_heap gr_tree gr_context gc_cipherSuite].
  change (deref [NLeaf (kp_leafNode (kpp_public kpp))] [Some 0%nat]) with [Some (NLeaf (kp_leafNode (kpp_public kpp)))].
  assert (P0 : forall p, in_tree 0 p -> p = []) by (intros p Hq; unfold in_tree in Hq; destruct p; [reflexivity|cbn in Hq; lia]).
  split; [apply single_shaped|]. constructor.
  - reflexivity.
  - intros p n Hq _ _. rewrite (P0 p Hq). discriminate.
  - intros p n key Hq En Ek. rewrite (P0 p Hq) in *. cbn in En, Ek. injection En as <-. injection Ek as <-. exists d0. auto.
  - intros p Hq _. rewrite (P0 p Hq). apply aos_refl.
Qed.

Theorem joined_holds w kpp now g ref s : crypto_ok C -> groupFromWelcome w kpp now = Ok g ->
  keyPackageRef (kpp_public kpp) = Ok ref -> decryptGroupSecrets w ref (kpp_initKey kpp) = Ok s ->
  opens (gc_cipherSuite (gr_context g)) (kpp_encryptionKey kpp) (ln_encryptionKey (kp_leafNode (kpp_public kpp))) ->
  (forall gi, decryptGroupInfo w (gs_joinerSecret s) (gr_pskSecret g) = Ok gi ->
     unmerged_without_secret g (match gs_pathSecret s with Some _ => true | None => false end) (gi_signer gi)) ->
  holds_its_keys g.
Proof.
  intros OK H Eref Es Hop Hun. apply groupFromWelcome_inv in H. destruct H as (ref' & s' & Eref' & Es' & Epsks & H).
  rewrite Eref in Eref'. apply Ok_inj in Eref'. subst ref'. rewrite Es in Es'. apply Ok_inj in Es'. subst s'. apply groupFromSecrets_inv in H.
  destruct H as (psk & gi & raw & t & signer & epoch & init & interim & me & priv & Epsk & Egi & Eraw & Et & Esg & Esig & Etag & Ecs & Ev & Eep & Ein & Eint & Eme & -> & priv0 & Ep0 & Ep).
  destruct (load t) as [h pt] eqn:El. destruct (load_value t h pt El) as (V & P & L). cbn [fst snd] in *.
  assert (Hne : t <> []). { intros ->. apply getLeaf_some in Esg. destruct (N.to_nat _); discriminate. }
  destruct (decoded_tree raw t Et Hne) as ((k & F) & _). pose proof (verifyIntegrity_shaped k t _ now F Ev) as Sh.
  assert (Hme : me < leaf_count k).
  { apply findLeaf_some in Eme. destruct Eme as (l' & e & Hme & _). destruct F as [F1 F2]. now rewrite (numLeaves_tree t k F1 F2) in Hme. }
  pose proof (nodeIndexOf_leaf k me (proj1 F) Hme) as Em.
  assert (Hl : exists l, leaf_at t me = Some l /\ ln_encryptionKey l = ln_encryptionKey (kp_leafNode (kpp_public kpp))).
  { apply findLeafFrom_same_key in Eme. destruct Eme as (n & En & Ek). exists n. split; [|exact Ek]. apply getLeaf_some in En. unfold leaf_at. rewrite Em in En. now rewrite En. }
  destruct Hl as (l & Hl & Hk). cbn [gr_context] in Hop. rewrite <- Hk in Hop. rewrite Em in Ep0.
  destruct (leaf_key_holds _ k t priv0 me l _ Sh Hme Hl Hop Ep0) as (F0 & A0 & O0).
  specialize (Hun gi Egi k). unfold gr_value in Hun. cbn [gr_heap gr_tree gr_myLeafIndex] in Hun. rewrite V in Hun.
  exists k. unfold gr_value. cbn [gr_heap gr_tree gr_context gr_privTree gr_myLeafIndex]. rewrite V. split; [exact Sh|].
  assert (Hat : at_path k t (leafPath k me) = Some (NLeaf l)) by (rewrite (shaped_leaf k) by auto; now rewrite Hl).
  destruct (gs_pathSecret s) as [ps|].
  - assert (Hsg : designated (gi_signer gi) < leaf_count k).
    { apply getLeaf_some in Esg. rewrite nodeIndexOf_designated in Esg. apply (leaf_in_array k t); [assumption|].
      assert (N.to_nat (2 * designated (gi_signer gi)) < length t)%nat by (apply nth_error_Some; congruence). unfold lenN. lia. }
    rewrite Em, nodeIndexOf_designated in Ep.
    destruct (commonAncestor_leaves k me (designated (gi_signer gi)) (proj1 F) Hme Hsg) as (a & Ha & Ea & A1 & A2 & A3). rewrite Ea in Ep.
    destruct (processPathSecret_sound _ k t priv0 ps a priv OK Sh Ha F0 Ep) as (F1 & K & O1).
    assert (Dec : forall p, ancestor_or_self p a \/ ~ ancestor_or_self p a).
    { intros p. destruct (path_eq_dec p a) as [->|N1]; [left; apply aos_refl|]. destruct (above_dec p a) as [X|X]; [left|right]; rewrite aos_above; tauto. }
    constructor.
    + rewrite (proj2 F1). symmetry. apply F.
    + intros p n Hp En Hkn. destruct (Dec p) as [Y|Y]; [destruct (K p Y) as (? & ? & _ & -> & _); discriminate|]. rewrite O1 by auto.
      destruct Hkn as [->|[Hab Hn]]; [congruence|]. exfalso. assert (Hpar : exists pn, n = NParent pn).
      { destruct n as [m|pn]; [|eauto]. pose proof (proj2 Sh p _ Hp En) as Pl. cbn in Pl. apply above_length in Hab. rewrite leafPath_length in Hab. lia. }
      destruct Hpar as [pn ->]. apply Hn. apply (Hun p pn Sh Hab En). right. intros X. apply Y. apply A3; auto. apply aos_above. now right.
    + intros p n key Hp En Ek. destruct (Dec p) as [Y|Y]; [destruct (K p Y) as (n' & key' & X1 & X2 & X3); congruence|]. rewrite O1 in Ek by auto.
      destruct (path_eq_dec p (leafPath k me)) as [->|N1]; [|rewrite O0 in Ek by auto; discriminate]. rewrite A0 in Ek. injection Ek as <-. rewrite Hat in En. injection En as <-. exact Hop.
    + intros p Hp Hn. destruct (Dec p) as [Y|Y]; [eapply aos_trans; eauto|]. rewrite O1 in Hn by auto.
      destruct (path_eq_dec p (leafPath k me)) as [->|N1]; [apply aos_refl|rewrite O0 in Hn by auto; congruence].
  - apply Ok_inj in Ep. subst priv. constructor.
    + rewrite (proj2 F0). symmetry. apply F.
    + intros p n Hp En Hkn. destruct Hkn as [->|[Hab Hn]]; [congruence|]. exfalso. assert (Hpar : exists pn, n = NParent pn).
      { destruct n as [m|pn]; [|eauto]. pose proof (proj2 Sh p _ Hp En) as Pl. cbn in Pl. apply above_length in Hab. rewrite leafPath_length in Hab. lia. }
      destruct Hpar as [pn ->]. apply Hn. apply (Hun p pn Sh Hab En). now left.
    + intros p n key Hp En Ek. destruct (path_eq_dec p (leafPath k me)) as [->|N1]; [|rewrite O0 in Ek by auto; discriminate]. rewrite A0 in Ek. injection Ek as <-. rewrite Hat in En. injection En as <-. exact Hop.
    + intros p Hp Hn. destruct (path_eq_dec p (leafPath k me)) as [->|N1]; [apply aos_refl|rewrite O0 in Hn by auto; congruence].
Qed.
End WithCrypto.
