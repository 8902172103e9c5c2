(** Proofs about what members read in update paths (C99). *)
From Verif Require Export SpecReads AlikeFacts.
From Coq Require Import Lia.

(** ** Resolutions with any unmerged leaves that are in the tree *)
Definition lists_in_tree (k : nat) (t : ratchetTree) : Prop :=
  forall q pn u, in_tree k q -> at_path k t q = Some (NParent pn) -> In u (pn_unmergedLeaves pn) -> designated u < leaf_count k.
Lemma resolution_any k t p d : shaped k t -> lists_in_tree k t -> in_tree k p -> d = (k - length p)%nat ->
  forall fuel, (d <= fuel)%nat -> resolveLoop fuel t (number k p) = Ok (map (number k) (resolution k t d p)).
Proof.
  intros Sh L. revert p. induction d as [|d IH]; intros p Hp Hd fuel Hf; rewrite (resolve_step k t p Sh Hp); cbn [resolution];
    destruct (at_path k t p) as [[l|pn]|] eqn:E; try reflexivity.
  1, 3: cbn [map]; f_equal; f_equal; rewrite map_map; apply map_ext_in; intros u Hu; pose proof (L p pn u Hp E Hu) as U;
        rewrite leafPath_number by assumption; apply nodeIndexOf_designated.
  - replace (length p) with k by (unfold in_tree in Hp; lia). now rewrite Nat.eqb_refl.
  - rewrite (proj2 (Nat.eqb_neq (length p) k)) by lia. destruct fuel as [|fuel]; [lia|].
    assert (Hlt : (length p < k)%nat) by lia.
    rewrite !IH; cbn [rbind]; try (now apply snoc_in); try (rewrite app_length; cbn; lia); try lia.
    now rewrite map_app.
Qed.
Lemma resolve_any k t p : shaped k t -> lists_in_tree k t -> in_tree k p ->
  resolve t (number k p) = Ok (map (number k) (resolution k t (k - length p) p)).
Proof. intros Sh L Hp. rewrite resolve_eq. apply resolution_any; auto. destruct Sh as [[Hk _] _]. unfold fits in Hk. lia. Qed.
Lemma resolution_inside k t : forall d p, in_tree k p -> d = (k - length p)%nat -> forall q, In q (resolution k t d p) -> in_tree k q.
Proof.
  induction d as [|d IH]; intros p Hp Hd q Hq; cbn [resolution] in Hq; destruct (at_path k t p) as [[l|pn]|] eqn:E.
  1, 4: destruct Hq as [<-|[]]; auto.
  1, 3: destruct Hq as [<-|Hq]; [assumption|]; apply in_map_iff in Hq; destruct Hq as (u & <- & Hu); apply leafPath_in.
  - destruct Hq.
  - assert (Hlt : (length p < k)%nat) by lia. apply in_app_iff in Hq.
    destruct Hq as [Hq|Hq]; apply IH in Hq; auto; try (now apply snoc_in); rewrite app_length; cbn; lia.
Qed.

(** ** The first private key *)
Lemma findPriv_first k (priv : privTree) : full k priv -> forall R i, (forall q, In q R -> in_tree k q) -> forall j key,
  findPriv priv i (map (number k) R) = Ok (Some (j, key)) <->
  exists before q after, R = before ++ q :: after /\ j = (i + length before)%nat /\ (forall x, In x before -> at_path k priv x = None) /\ at_path k priv q = Some key.
Proof.
  intros F. induction R as [|x R IH]; intros i HR j key; cbn [map findPriv].
  - split; [discriminate|]. intros ([|] & q & after & E & _); discriminate.
  - rewrite (at_path_getN k) by (auto; apply HR; now left). cbn [rbind]. destruct (at_path k priv x) as [kx|] eqn:Ex.
    + split.
      * intros H. apply Ok_inj in H. injection H as <- <-. exists [], x, R. splits; auto; try (cbn; lia); intros ? [].
      * intros (before & q & after & E & Hj & Hn & Hq). destruct before as [|y before].
        -- cbn in E. injection E as <- _. rewrite Ex in Hq. injection Hq as <-. cbn in Hj. subst j. now rewrite Nat.add_0_r.
        -- cbn in E. injection E as <- _. rewrite (Hn x) in Ex by now left. discriminate.
    + rewrite IH by (intros; apply HR; now right). split.
      * intros (before & q & after & -> & -> & Hn & Hq). exists (x :: before), q, after. splits; auto; try (cbn; lia). intros y [<-|Hy]; auto.
      * intros (before & q & after & E & Hj & Hn & Hq). destruct before as [|y before].
        -- cbn in E. injection E as <- _. congruence.
        -- cbn in E. injection E as <- ->. exists before, q, after. splits; auto; try (cbn in Hj; lia). intros y Hy. apply Hn. now right.
Qed.

Section WithCrypto.
Context {C : crypto}.

(** ** The keys further up *)
Lemma secret_up_step cs n s : path_secret_up cs n (DeriveSecret cs s (str "path")) = path_secret_up cs (S n) s.
Proof.
  unfold path_secret_up. set (f := fun s => DeriveSecret cs s (str "path")). change (Nat.iter n f (f s) = f (Nat.iter n f s)).
  induction n as [|n IH]; [reflexivity|]. change (f (Nat.iter n f (f s)) = f (f (Nat.iter n f s))). now rewrite IH.
Qed.
Lemma derivePath_keyed cs k t : known_suite cs -> full k t -> forall l priv s, (forall x, In x l -> in_tree k x) -> full k priv ->
  (exists priv', derivePath cs t priv s (map (number k) l) = Ok (priv', path_secret_up cs (length l) s)) <->
  keyed_from cs k t l (DeriveSecret cs s (str "path")).
Proof.
  intros Hk F. induction l as [|x l IH]; intros priv s Hl Fp; cbn [map derivePath keyed_from length].
  - split; [exact (fun _ => I)|]. intros _. exists priv. reflexivity.
  - rewrite (proj2 (gives_deriveSecret cs s (str "path"))) by (split; [assumption|reflexivity]). cbn [rbind].
    rewrite (at_path_getN k) by (auto; apply Hl; now left). cbn [rbind]. rewrite <- secret_up_step.
    set (s1 := DeriveSecret cs s (str "path")) in *. split.
    + intros (priv' & H). destruct (at_path k t x) as [n|]; [|discriminate]. apply rbind_ok in H as (np & Hnp & H). apply nodePriv_iff in Hnp.
      apply rbind_ok in H as (p1 & Hp1 & H). split; [eauto|]. apply (IH p1 s1); [intros; apply Hl; now right| |eauto].
      destruct (set_path_inv k priv x (Some np) p1 Fp) as [Fp1 _]; auto. apply Hl. now left.
    + intros [(n & np & -> & Hn) Hr]. rewrite (proj2 (nodePriv_iff _ _ _ _) Hn). cbn [rbind].
      destruct (set_path k priv x (Some np) Fp) as (p1 & -> & Fp1 & _); [apply Hl; now left|]. cbn [rbind].
      apply (IH p1 s1); auto. intros; apply Hl; now right.
Qed.

(** ** Reading *)
Definition context_fits (ctx : groupContext) : Prop := exists raw m, putGroupContext ctx = Ok raw /\ putLabelled (str "UpdatePathNode") raw = Ok m.
Lemma decrypt_fits cs key ctx ct s : decryptPathSecret cs key ctx ct = Ok s -> context_fits ctx.
Proof. unfold decryptPathSecret, decryptWithLabel. intros H. apply rbind_ok in H as (raw & Hr & H). apply rbind_ok in H as (m & Hm & _). now exists raw, m. Qed.
Lemma decrypt_iff cs key ctx ct s : context_fits ctx ->
  decryptPathSecret cs key ctx ct = Ok s <-> DecryptWithLabel cs key (str "UpdatePathNode") (enc_groupContext ctx) (hc_kemOutput ct) (hc_ciphertext ct) s.
Proof.
  intros (raw & m & Hr & Hm). unfold decryptPathSecret. rewrite Hr. cbn [rbind]. rewrite <- (writes_groupContext _ _ Hr). split; [apply decrypt_only|].
  unfold decryptWithLabel, DecryptWithLabel. rewrite Hm. cbn [rbind]. rewrite <- (writes_labelled _ _ _ Hm). intros (d & Hd & H). rewrite suite_eq in Hd. unfold describe. rewrite Hd. cbn [rbind]. now rewrite H.
Qed.

Lemma open_iff cs k t ctx priv u c a l z : known_suite cs -> context_fits ctx -> shaped k t -> lists_in_tree k t -> full k priv -> in_tree k c -> in_tree k a -> (forall x, In x l -> in_tree k x) ->
  (exists priv', openPath cs t ctx priv u (number k c) (number k a) (map (number k) l) = Ok (z, priv')) <->
  exists before q after key ct s,
    resolution k t (k - length c) c = before ++ q :: after /\
    (forall x, In x before -> at_path k priv x = None) /\ at_path k priv q = Some key /\
    length (upn_encryptedPathSecret u) = length (resolution k t (k - length c) c) /\
    nth_error (upn_encryptedPathSecret u) (length before) = Some ct /\
    DecryptWithLabel cs key (str "UpdatePathNode") (enc_groupContext ctx) (hc_kemOutput ct) (hc_ciphertext ct) s /\
    keyed_from cs k t (a :: l) s /\
    z = path_secret_up cs (S (length l)) s.
Proof.
  intros Hk Hctx Sh L Fp Hc Ha Hl. pose proof (shaped_full _ _ Sh) as F. rewrite openPath_eq, (resolve_any k t c Sh L Hc). cbn [rbind].
  set (R := resolution k t (k - length c) c). assert (HR : forall q, In q R -> in_tree k q) by (intros q; apply resolution_inside; auto).
  pose proof (findPriv_first k priv Fp R 0 HR) as FF. rewrite lenN_map. rewrite (at_path_getN k) by assumption.
  assert (Derive : forall s, deriveSecret cs s (str "path") = Ok (DeriveSecret cs s (str "path"))).
  { intros s. apply (proj2 (gives_deriveSecret cs s (str "path"))). split; [assumption|reflexivity]. }
  split.
  - intros (priv' & H). apply rbind_guard in H as [Hlen H]. apply N.eqb_eq in Hlen. apply rbind_ok in H as ([[j key]|] & Hf & H); [|discriminate].
    apply FF in Hf as (before & q & after & ER & Ej & Hn & Hq). cbn [Nat.add] in Ej. subst j.
    apply rbind_ok in H as (ct & Hct & H). apply index_ok in Hct. apply rbind_ok in H as (s & Hs & H). cbn [rbind] in H.
    destruct (at_path k t a) as [n|] eqn:Ea; [|discriminate]. apply rbind_ok in H as (np & Hnp & H). apply nodePriv_iff in Hnp.
    apply rbind_ok in H as (p1 & Hp1 & H). apply rbind_ok in H as ([p2 s2] & Hd & H). rewrite Derive in H. cbn [rbind] in H.
    apply Ok_inj in H. apply pair_equal_spec in H as [<- _]. destruct (set_path_inv k priv a _ p1 Fp Ha Hp1) as [Fp1 _].
    pose proof (derivePath_secret _ _ _ _ _ _ _ Hd) as E2. rewrite map_length in E2.
    exists before, q, after, key, ct, s. splits; auto.
    + unfold lenN in Hlen. lia.
    + now apply decrypt_iff.
    + cbn [keyed_from]. split; [eauto|]. apply (derivePath_keyed cs k t Hk F l p1 s Hl Fp1). exists p2. now rewrite <- E2.
    + rewrite E2. reflexivity.
  - intros (before & q & after & key & ct & s & ER & Hn & Hq & Hlen & Hct & Hdec & Hkey & ->).
    rewrite (proj2 (N.eqb_eq _ _)) by (unfold lenN; now rewrite Hlen). cbn [guard rbind].
    rewrite (proj2 (FF (length before) key)) by (exists before, q, after; auto). cbn [rbind].
    rewrite (proj2 (index_ok _ _ _) Hct). cbn [rbind]. rewrite (proj2 (decrypt_iff cs key ctx ct s Hctx) Hdec). cbn [rbind].
    cbn [keyed_from] in Hkey. destruct Hkey as [(n & np & -> & Hnp) Hkey]. rewrite (proj2 (nodePriv_iff _ _ _ _) Hnp). cbn [rbind].
    destruct (set_path k priv a (Some np) Fp Ha) as (p1 & -> & Fp1 & _). cbn [rbind].
    destruct (proj2 (derivePath_keyed cs k t Hk F l p1 s Hl Fp1) Hkey) as (p2 & ->). cbn [rbind]. rewrite Derive. cbn [rbind]. exists p2. reflexivity.
Qed.

(** ** The node above both *)
Lemma decrypt_at cs k t ctx li me up priv : shaped k t -> designated li < leaf_count k -> me < 2 ^ 31 ->
  forall z, (exists p, decryptPathSecrets cs t ctx li me up priv = Ok (z, p)) <->
  me < leaf_count k /\ exists below a c rest nodes u nodes', filtered k t (leafPath k (designated li)) = below ++ (a, c) :: rest /\
    up_nodes up = nodes ++ u :: nodes' /\ length nodes = length below /\ length nodes' = length rest /\
    ancestor_or_self c (leafPath k me) /\
    exists p, openPath cs t ctx priv u (number k c) (number k a) (map (number k) (map fst rest)) = Ok (z, p).
Proof.
  intros Sh Hs Hme z. pose proof (shaped_full _ _ Sh) as F. pose proof F as [Hk Ht]. rewrite decryptPathSecrets_eq, (nodeIndexOf_designated li).
  assert (Em : nodeIndexOf me = 2 * me) by (unfold nodeIndexOf; apply w32_small; change (2 ^ 32) with (2 * 2 ^ 31); lia). rewrite Em.
  set (s := designated li) in *. 
  assert (Ef : filteredDirectPath t (2 * s) = Ok (map (number k) (map fst (filtered k t (leafPath k s))))).
  { rewrite <- (leafPath_number k s Hs). apply filteredDirectPath_ok; [assumption|apply leafPath_in]. }
  rewrite Ef. clear Ef. cbn [rbind]. set (L := filtered k t (leafPath k s)).
  assert (Part : me < leaf_count k -> forall a c, In (a, c) L -> forall b s1, leafPath k s = a ++ b :: s1 -> c = a ++ [negb b] ->
    (commonAncestor (2 * s) (2 * me) = number k a -> ancestor_or_self c (leafPath k me)) /\
    (ancestor_or_self c (leafPath k me) -> commonAncestor (2 * s) (2 * me) = number k a /\
       (if 2 * me <? 2 * s then left (number k a) else right (number k a)) = Some (number k c))).
  { intros Hmek a c Hin b s1 Es Ec.
    assert (Ha : in_tree k a) by (unfold in_tree; apply (f_equal (@length bool)) in Es; rewrite leafPath_length, app_length in Es; cbn in Es; lia).
    split.
    - intros E2. assert (Hne : s <> me).
      { intros E. rewrite <- E in E2. destruct (commonAncestor_leaves k s s Hk Hs Hs) as (q & Hq & Eq & A1 & _ & A3). specialize (A3 _ (aos_refl _) (aos_refl _)).
        apply aos_same in A1; [|apply Nat.le_antisymm; [now apply aos_length|now apply aos_length]]. rewrite Eq, A1 in E2. apply number_inj in E2; [|apply leafPath_in|assumption].
        apply (above_not_self a). rewrite <- E2 at 2. exists b, s1. exact Es. }
      destruct (leaves_part k s me Hs Hmek Hne) as (a' & b' & r1 & r2 & P1 & P2).
      assert (I1 : in_tree k (a' ++ b' :: r1)) by (rewrite <- P1; apply leafPath_in).
      assert (I2 : in_tree k (a' ++ negb b' :: r2)) by (rewrite <- P2; apply leafPath_in).
      assert (Eca : commonAncestor (2 * s) (2 * me) = number k a') by (rewrite <- (leafPath_number k s), <- (leafPath_number k me), P1, P2 by assumption; now apply commonAncestor_part).
      assert (a' = a). { rewrite Eca in E2. apply number_inj in E2; auto. unfold in_tree in *. rewrite app_length in I1. lia. }
      subst a'. rewrite Es in P1. apply app_inv_head in P1. injection P1 as <- _. rewrite Ec, P2. exists r2. now rewrite <- app_assoc.
    - intros (r2 & P2). rewrite Ec, <- app_assoc in P2. cbn [app] in P2.
      assert (I1 : in_tree k (a ++ b :: s1)) by (rewrite <- Es; apply leafPath_in).
      assert (I2 : in_tree k (a ++ negb b :: r2)) by (rewrite <- P2; apply leafPath_in).
      assert (Eca : commonAncestor (2 * s) (2 * me) = number k a) by (rewrite <- (leafPath_number k s), <- (leafPath_number k me), Es, P2 by assumption; now apply commonAncestor_part).
      split; [exact Eca|]. rewrite Ec. rewrite <- (leafPath_number k s), <- (leafPath_number k me), Es, P2 by assumption. now apply part_child. }
  split.
  - intros (p & H). apply rbind_guard in H as [El H]. apply N.eqb_eq in El.
    destruct (position _ _) as [i|] eqn:Ep; [|discriminate].
    apply position_some in Ep. destruct Ep as (l1 & l2 & Ep & Ei). rewrite map_map in Ep.
    destruct (map_split _ _ _ _ _ Ep) as (m1 & [a c] & m2 & EL & E1 & E2 & E3). cbn [fst] in E2.
    assert (Hin : In (a, c) L) by (rewrite EL; apply in_elt). pose proof (filtered_In _ _ _ _ _ Hin) as (b & s1 & Es & Ec).
    assert (Ha : in_tree k a) by (unfold in_tree; apply (f_equal (@length bool)) in Es; rewrite leafPath_length, app_length in Es; cbn in Es; lia).
    assert (Hmek : me < leaf_count k).
    { destruct (commonAncestor_leaves 31 s me) as (q & Hq & Eq & _ & A2 & _); [unfold fits; lia|eapply N.lt_le_trans; [exact Hs|apply leaf_count_le; exact Hk]|exact Hme|].
      apply (proj1 (own_in_tree k me a Hk Hme Ha)). rewrite E2, Eq. exists q. auto. }
    destruct (Part Hmek a c Hin b s1 Es Ec) as [PA PB]. specialize (PA (eq_sym E2)). destruct (PB PA) as [Eca Ech].
    split; [exact Hmek|]. apply rbind_ok in H as (upn & Hu & H). apply index_ok in Hu. rewrite Eca, Ech in H.
    destruct (nth_error_split _ _ Hu) as (n1 & n2 & En & Eln).
    assert (Etl : skipn (S i) (map (number k) (map fst L)) = l2).
    { rewrite map_map, Ep. rewrite <- Ei. change (S (length l1)) with (1 + length l1)%nat. rewrite Nat.add_comm. rewrite skipn_app, skipn_all2 by lia. replace (length l1 + 1 - length l1)%nat with 1%nat by lia. reflexivity. }
    rewrite Etl, <- E3 in H. rewrite En, EL in El. unfold lenN in El. rewrite !map_length, !app_length in El. cbn [length] in El. rewrite <- E1, map_length in Ei.
    exists m1, a, c, m2, n1, upn, n2. splits; auto; try lia. exists p. rewrite map_map. exact H.
  - intros (Hmek & below & a & c & rest & nodes & u & nodes' & EL & En & L1 & L2 & Hc & p & H).
    assert (Hin : In (a, c) L) by (rewrite EL; apply in_elt). pose proof (filtered_In _ _ _ _ _ Hin) as (b & s1 & Es & Ec).
    destruct (Part Hmek a c Hin b s1 Es Ec) as [_ PB]. destruct (PB Hc) as [Eca Ech].
    rewrite (proj2 (N.eqb_eq _ _)) by (unfold lenN; rewrite !map_length, En, EL, !app_length; cbn [length]; lia). cbn [guard rbind]. rewrite Eca.
    assert (Epos : position (number k a) (map (number k) (map fst L)) = Some (length below)).
    { rewrite EL, !map_app. cbn [map fst]. replace (length below) with (length (map (number k) (map fst below))) by now rewrite !map_length.
      apply position_spec. rewrite map_map. intros Hx. apply in_map_iff in Hx as ([y w] & Ey & Hy). cbn [fst] in Ey.
      pose proof (filtered_sorted k t (leafPath k s)) as Srt. fold L in Srt. rewrite EL in Srt. apply sorted_split in Srt. destruct Srt as [Srt _]. specialize (Srt _ Hy). cbn [fst] in Srt.
      assert (Hyn : In (y, w) L) by (rewrite EL; apply in_or_app; now left). destruct (filtered_In _ _ _ _ _ Hyn) as (b2 & s2 & Es2 & _).
      apply number_inj in Ey.
      - subst y. now apply above_not_self in Srt.
      - unfold in_tree. apply (f_equal (@length bool)) in Es2. rewrite leafPath_length, app_length in Es2. lia.
      - unfold in_tree. apply (f_equal (@length bool)) in Es. rewrite leafPath_length, app_length in Es. lia. }
    rewrite Epos. assert (Eu : index (up_nodes up) (length below) = Ok u) by (apply index_ok; rewrite En, <- L1, nth_error_app2, Nat.sub_diag by lia; reflexivity).
    rewrite Eu. cbn [rbind]. rewrite Ech. exists p. rewrite <- H. f_equal.
    rewrite EL, !map_app, skipn_app. cbn [map]. rewrite skipn_all2 by (rewrite !map_length; lia). rewrite !map_length.
    replace (S (length below) - length below)%nat with 1%nat by lia. reflexivity.
Qed.

Lemma reads_iff cs k t ctx li me up priv : known_suite cs -> context_fits ctx -> shaped k t -> lists_in_tree k t -> full k priv ->
  designated li < leaf_count k -> me < 2 ^ 31 ->
  forall z, (exists p, decryptPathSecrets cs t ctx li me up priv = Ok (z, p)) <-> reads_path cs k t ctx (designated li) me up priv z.
Proof.
  intros Kn Hctx Sh L Fp Hs Hme z. rewrite (decrypt_at cs k t ctx li me up priv Sh Hs Hme z). unfold reads_path.
  assert (In1 : forall a c, In (a, c) (filtered k t (leafPath k (designated li))) -> in_tree k a /\ in_tree k c).
  { intros a c Hin. destruct (filtered_In _ _ _ _ _ Hin) as (b & s1 & Es & ->). apply (f_equal (@length bool)) in Es. rewrite leafPath_length, app_length in Es. cbn in Es.
    unfold in_tree. rewrite app_length. cbn. lia. }
  assert (In2 : forall below a c rest, filtered k t (leafPath k (designated li)) = below ++ (a, c) :: rest -> in_tree k c /\ in_tree k a /\ forall x, In x (map fst rest) -> in_tree k x).
  { intros below a c rest E. destruct (In1 a c) as [Ha Hc]; [rewrite E; apply in_elt|]. splits; auto. intros x Hx. apply in_map_iff in Hx as ([y w] & <- & Hy).
    apply (In1 y w). rewrite E. apply in_or_app. right. now right. }
  split.
  - intros (Hm & below & a & c & rest & nodes & u & nodes' & E & En & L1 & L2 & Hc & H). split; [exact Hm|]. destruct (In2 _ _ _ _ E) as (Ic & Ia & Ir).
    apply (open_iff cs k t ctx priv u c a (map fst rest) z Kn Hctx Sh L Fp Ic Ia Ir) in H. destruct H as (before & q & after & key & ct & s & H).
    rewrite map_length in H. destruct H as (H1 & H2 & H3 & H4 & H5 & H6 & H7 & H8).
    exists below, a, c, rest, nodes, u, nodes', before, q, after, key, ct, s. splits; auto.
  - intros (Hm & below & a & c & rest & nodes & u & nodes' & before & q & after & key & ct & s & E & En & L1 & L2 & Hc & H1 & H2 & H3 & H4 & H5 & H6 & H7 & H8). split; [exact Hm|]. destruct (In2 _ _ _ _ E) as (Ic & Ia & Ir).
    exists below, a, c, rest, nodes, u, nodes'. splits; auto. apply (open_iff cs k t ctx priv u c a (map fst rest) z Kn Hctx Sh L Fp Ic Ia Ir).
    exists before, q, after, key, ct, s. rewrite map_length. splits; auto.
Qed.

(** ** The keys that are carried over *)
Lemma carried_at tl nl (priv p : privTree) k q : carryPriv tl nl priv = Ok p -> length priv = tl -> (N.to_nat (number k q) < nl)%nat -> at_path k p q = at_path k priv q.
Proof.
  unfold carryPriv, at_path. intros H L Hq. destruct (Nat.ltb_spec (length priv) (Nat.min tl nl)); [discriminate|]. apply Ok_inj in H. subst p.
  set (i := N.to_nat (number k q)) in *. destruct (Nat.lt_ge_cases i (Nat.min tl nl)) as [Hi|Hi].
  - rewrite nth_error_app1 by (rewrite firstn_length; lia). rewrite <- (firstn_skipn (Nat.min tl nl) priv) at 2. rewrite (nth_error_app1 (firstn _ priv)) by (rewrite firstn_length; lia). reflexivity.
  - rewrite nth_error_app2 by (rewrite firstn_length; lia). rewrite (proj2 (nth_error_None priv i)) by lia.
    destruct (nth_error (repeat None _) _) as [o|] eqn:E; [|reflexivity]. apply nth_error_In, repeat_spec in E. now subst o.
Qed.
Lemma reads_keys cs k t ctx li me up p p' z : (forall q, in_tree k q -> at_path k p q = at_path k p' q) ->
  reads_path cs k t ctx li me up p z -> reads_path cs k t ctx li me up p' z.
Proof.
  intros E (Hm & below & a & c & rest & nodes & u & nodes' & before & q & after & key & ct & s & EL & H2 & H3 & H4 & H5 & H6 & H7 & H8 & H9 & H10 & H11 & H12 & H13). split; [exact Hm|].
  assert (HR : forall x, In x (before ++ q :: after) -> in_tree k x).
  { intros x Hx. rewrite <- H6 in Hx. apply resolution_inside in Hx; auto. assert (Hin : In (a, c) (filtered k t (leafPath k li))) by (rewrite EL; apply in_elt).
    destruct (filtered_In _ _ _ _ _ Hin) as (b & s1 & Es & ->). apply (f_equal (@length bool)) in Es. rewrite leafPath_length, app_length in Es. cbn in Es.
    unfold in_tree. rewrite app_length. cbn. lia. }
  exists below, a, c, rest, nodes, u, nodes', before, q, after, key, ct, s. splits; auto.
  - intros x Hx. rewrite <- E by (apply HR; apply in_or_app; now left). auto.
  - rewrite <- E by (apply HR; apply in_elt). exact H8.
Qed.

(** ** What the first member has found *)
Lemma decrypt_one cs t ctx li me up priv z p : decryptPathSecrets cs t ctx li me up priv = Ok (z, p) -> exists key ct s, decryptPathSecret cs key ctx ct = Ok s.
Proof.
  rewrite decryptPathSecrets_eq. intros H. apply rbind_ok in H as (fdp & _ & H). apply rbind_guard in H as [_ H].
  destruct (position _ _) as [i|]; [|discriminate]. apply rbind_ok in H as (upn & _ & H). destruct (if nodeIndexOf me <? nodeIndexOf li then _ else _) as [cp|]; [|discriminate].
  rewrite openPath_eq in H. apply rbind_ok in H as (rs & _ & H). apply rbind_guard in H as [_ H]. apply rbind_ok in H as ([[ri np]|] & _ & H); [|discriminate].
  apply rbind_ok in H as (ct & _ & H). apply rbind_ok in H as (s & Hs & _). eauto.
Qed.
Lemma decrypt_known cs key ctx ct s : decryptPathSecret cs key ctx ct = Ok s -> known_suite cs.
Proof.
  unfold decryptPathSecret, decryptWithLabel. intros H. apply rbind_ok in H as (raw & _ & H). apply rbind_ok in H as (m & _ & H). apply rbind_ok in H as (d & Hd & _).
  apply describe_some in Hd. exists d. now rewrite suite_eq.
Qed.
Lemma path_opened g raw now ac c up li g' : obtained g -> accepts_commit g raw now ac c g' -> c_path c = Some up -> fc_sender (ac_content ac) = SMember li ->
  known_suite (gc_cipherSuite (gr_context g)) /\ context_fits (next_context (gr_context g) (gc_treeHash (gr_context g')) (gc_confirmedTranscriptHash (gr_context g))) /\
  (forall k, shaped k (gr_value g') -> designated li < leaf_count k) /\
  exists priv z p, carryPriv (length (gr_value g)) (length (gr_value g')) (gr_privTree g) = Ok priv /\
    decryptPathSecrets (gc_cipherSuite (gr_context g)) (gr_value g') (next_context (gr_context g) (gc_treeHash (gr_context g')) (gc_confirmedTranscriptHash (gr_context g)))
      li (gr_myLeafIndex g) up priv = Ok (z, p).
Proof.
  intros O A Hup Hs. pose proof (obtained_sane g O) as Sa.
  pose proof (accepts_commit_inv _ _ _ _ _ _ A) as [_ Ep]. pose proof A as (_ & Hb & _).
  apply processCommit_ok in Ep. destruct Ep as (c' & proposals & senders & h & t & Hb' & Hck & Ha & Hf). assert (c' = c) by congruence. subst c'.
  pose proof (proj1 (sane_consistent _ Sa)) as Pr. destruct (applyH_value_ok _ _ _ _ _ _ Pr Ha) as [V P]. fold (gr_value g) in V.
  pose proof (vapply_shape _ _ _ _ (sane_shape _ Sa) V) as W.
  destruct (finishCommit_ok _ _ _ _ _ _ _ _ _ Hf) as (priv & nh & h1 & t1 & th & z & priv1 & ctx & it & psk & es & ini & Ec & Enh & Hpp & Hne & Eg').
  rewrite Hup, Hs in Hpp. cbn [sender_leafIndex] in Hpp. apply processPath_all in Hpp. destruct Hpp as (Hm & Hth & Hd).
  assert (Eth : gc_treeHash (gr_context g') = th).
  { rewrite Eg'. cbn [gr_context]. destruct (nextEpoch_ok _ _ _ _ _ _ _ _ _ _ _ Hne) as (co & jo & _ & -> & _). reflexivity. }
  assert (Evg : gr_value g' = deref h1 t1) by (rewrite Eg'; reflexivity).
  rewrite Eth. change (next_context ?a ?b ?c) with (nextContext a b c). destruct (decrypt_one _ _ _ _ _ _ _ _ _ Hd) as (key & ct & s & Hs').
  split; [exact (decrypt_known _ _ _ _ _ Hs')|]. split; [exact (decrypt_fits _ _ _ _ _ Hs')|]. pose proof (mergeH_length _ _ _ _ _ _ _ Hm) as El.
  split; [|exists priv, z, priv1; rewrite Evg; split; [|exact Hd]; rewrite gr_value_length; unfold deref at 1; rewrite map_length, El; exact Ec].
  intros k Sh. rewrite Evg in Sh. destruct W as [W|(k0 & Sh0)].
  - exfalso. pose proof (shaped_full _ _ Sh) as [_ F]. apply (f_equal (@length _)) in W. unfold deref in W. rewrite map_length in W. cbn in W.
    unfold lenN, deref in F. rewrite map_length, El, W in F. cbn in F. unfold node_count in F. pose proof (N.pow_le_mono_r 2 1 (N.of_nat (S k)) ltac:(lia) ltac:(lia)). change (2 ^ 1) with 2 in *. lia.
  - destruct (mergeH_inv _ k0 h t _ up h1 t1 P Sh0 Hm) as (E4 & _). destruct (mergeUpdatePath_sound _ k0 _ _ _ _ Sh0 E4) as (_ & F1 & Hl & _).
    now rewrite (full_height k k0 (deref h1 t1) (shaped_full _ _ Sh) F1).
Qed.

(** ** The two descriptions are the same. *)
Lemma can_read_iff g m raw now ac c up li g' priv : obtained g -> obtained m ->
  accepts_commit g raw now ac c g' -> c_path c = Some up -> fc_sender (ac_content ac) = SMember li ->
  carryPriv (length (gr_value m)) (length (gr_value g')) (gr_privTree m) = Ok priv ->
  forall z, can_read g m g' li up z <->
  exists p, decryptPathSecrets (gc_cipherSuite (gr_context g)) (gr_value g') (next_context (gr_context g) (gc_treeHash (gr_context g')) (gc_confirmedTranscriptHash (gr_context g)))
      li (gr_myLeafIndex m) up priv = Ok (z, p).
Proof.
  intros O Om A Hup Hs Hc z. destruct (path_opened g raw now ac c up li g' O A Hup Hs) as (Kn & Hctx & Hli & _).
  assert (O' : obtained g') by (destruct A as (_ & _ & A'); exact (obtained_message _ _ _ _ _ O A')).
  pose proof (obtained_sane g' O') as Sa'. destruct (sane_shape _ Sa') as [W|(k & Sh)]; [exfalso; apply (ms_in _ (obtained_state _ O')); unfold leaf_at; rewrite W; destruct (N.to_nat _); reflexivity|].
  pose proof (obtained_sane m Om) as Sm. pose proof (shaped_full _ _ Sh) as F. pose proof F as [Hk Ht].
  assert (Lp : length priv = length (gr_value g')) by exact (carryPriv_len _ _ _ _ Hc).
  assert (Lm : length (gr_privTree m) = length (gr_value m)) by (rewrite gr_value_length; exact (proj2 (sane_consistent _ Sm))).
  assert (Fp : full k priv) by (split; [exact Hk|]; unfold lenN in *; now rewrite Lp).
  assert (Lb : lists_in_tree k (gr_value g')).
  { intros q pn u Hq En Hu. exact (proj1 (proj1 (lists_paths k _ F) (ms_lists _ (obtained_state _ O')) q pn u Hq En Hu)). }
  assert (At : forall q, in_tree k q -> at_path k priv q = at_path k (gr_privTree m) q).
  { intros q Hq. apply (carried_at _ _ _ _ k q Hc Lm). pose proof (number_lt k q Hq). unfold lenN in Ht. lia. }
  rewrite (reads_iff _ k _ _ li (gr_myLeafIndex m) up priv Kn Hctx Sh Lb Fp (Hli k Sh) (ms_index _ (obtained_state _ Om))).
  split.
  - intros (k' & Sh' & H). assert (k' = k) by (eapply full_height; apply shaped_full; eauto). subst k'.
    apply (reads_keys _ _ _ _ _ _ _ _ priv) in H; [exact H|intros; symmetry; now apply At].
  - intros H. exists k. split; [exact Sh|]. exact (reads_keys _ _ _ _ _ _ _ _ _ _ At H).
Qed.

Theorem path_read g raw now ac c up li g' : obtained g ->
  accepts_commit g raw now ac c g' -> c_path c = Some up -> fc_sender (ac_content ac) = SMember li -> exists z, can_read g g g' li up z.
Proof.
  intros O A Hup Hs. destruct (path_opened g raw now ac c up li g' O A Hup Hs) as (_ & _ & _ & priv & z & p & Hc & Hd).
  exists z. apply (can_read_iff g g raw now ac c up li g' priv O O A Hup Hs Hc z). now exists p.
Qed.

Theorem path_followed g m raw now now' ac c up li g' : obtained g -> obtained m -> agree g m -> gr_pending m = gr_pending g ->
  accepts_commit g raw now ac c g' -> c_path c = Some up -> fc_sender (ac_content ac) = SMember li ->
  (is_ok (snd (unmarshalAndProcessMessage m raw now')) = true <-> exists z, can_read g m g' li up z) \/ keys_collide g m c g'.
Proof.
  intros O Om Ag Hp A Hup Hs. destruct (path_gives g m raw now now' ac c up li g' O Om Ag Hp A Hup Hs) as (priv & Hc & [E|E]); [left|now right].
  rewrite E. pose proof (can_read_iff g m raw now ac c up li g' priv O Om A Hup Hs Hc) as R. split.
  - intros H. destruct (decryptPathSecrets _ _ _ _ _ _ _) as [[z p]|e|e|] eqn:Ed; cbn [rmap is_ok] in H; try discriminate. exists z. apply R. now exists p.
  - intros (z & H). apply R in H as (p & ->). reflexivity.
Qed.
End WithCrypto.
