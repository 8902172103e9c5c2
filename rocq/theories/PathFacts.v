(** Path secrets: decrypting them, deriving keys from them. *)
From Verif Require Export SpecPath UnmergedFacts ScheduleFacts Sender.

(** ** Resolutions *)
Lemma resolution_eq k t p d : shaped k t -> lists_members_below k t -> in_tree k p -> d = (k - length p)%nat ->
  forall fuel, (d <= fuel)%nat -> resolveLoop fuel t (number k p) = Ok (map (number k) (resolution k t d p)).
Proof.
  intros Sh L. revert p. induction d as [|d IH]; intros p Hp Hd fuel Hf; rewrite (resolve_step k t p Sh Hp); cbn [resolution];
    destruct (at_path k t p) as [[l|pn]|] eqn:E; try reflexivity.
  1, 3: cbn [map]; f_equal; f_equal; rewrite map_map; apply map_ext_in; intros u Hu; destruct (L p pn u Hp E Hu) as (U & _);
        rewrite leafPath_number by assumption; apply (nodeIndexOf_leaf k); auto; apply Sh.
  - replace (length p) with k by (unfold in_tree in Hp; lia). now rewrite Nat.eqb_refl.
  - rewrite (proj2 (Nat.eqb_neq (length p) k)) by lia. destruct fuel as [|fuel]; [lia|].
    assert (Hlt : (length p < k)%nat) by lia.
    rewrite !IH; cbn [rbind]; try (now apply snoc_in); try (rewrite app_length; cbn; lia); try lia.
    now rewrite map_app.
Qed.
Lemma resolve_resolution k t p : shaped k t -> lists_members_below k t -> in_tree k p ->
  resolve t (number k p) = Ok (map (number k) (resolution k t (k - length p) p)).
Proof. intros Sh L Hp. rewrite resolve_eq. apply resolution_eq; auto. destruct Sh as [[Hk _] _]. unfold fits in Hk. lia. Qed.

(** The nodes of a resolution are in the subtree and not blank. *)
Lemma resolution_In k t : shaped k t -> lists_members_below k t -> forall d p, in_tree k p -> d = (k - length p)%nat ->
  forall q, In q (resolution k t d p) -> in_tree k q /\ ancestor_or_self p q /\ at_path k t q <> None.
Proof.
  intros Sh L. induction d as [|d IH]; intros p Hp Hd q Hq; cbn [resolution] in Hq; destruct (at_path k t p) as [[l|pn]|] eqn:E.
  1, 4: destruct Hq as [<-|[]]; splits; auto; [apply aos_refl|congruence].
  1, 3: destruct Hq as [<-|Hq]; [splits; auto; [apply aos_refl|congruence]|];
        apply in_map_iff in Hq; destruct Hq as (u & <- & Hu); destruct (L p pn u Hp E Hu) as (U1 & U2 & U3);
        splits; [apply leafPath_in|apply aos_above; auto|rewrite (shaped_leaf k) by assumption; now destruct (leaf_at t u)].
  - destruct Hq.
  - assert (Hlt : (length p < k)%nat) by lia. apply in_app_iff in Hq.
    destruct Hq as [Hq|Hq]; apply IH in Hq; try (now apply snoc_in); try (rewrite app_length; cbn; lia);
      destruct Hq as (Q1 & Q2 & Q3); splits; auto; eapply aos_trans; eauto; apply aos_snoc.
Qed.
Lemma resolution_ext k t1 t2 : forall d p, in_tree k p -> d = (k - length p)%nat ->
  (forall q, in_tree k q -> ancestor_or_self p q -> at_path k t1 q = at_path k t2 q) ->
  resolution k t1 d p = resolution k t2 d p.
Proof.
  induction d as [|d IH]; intros p Hp Hd H; cbn [resolution]; rewrite (H p Hp (aos_refl p)); [reflexivity|].
  destruct (at_path k t2 p) as [[|]|]; try reflexivity. assert (Hlt : (length p < k)%nat) by lia.
  f_equal; apply IH; try (now apply snoc_in); try (rewrite app_length; cbn; lia); intros q Hq Ha; apply H; auto;
    eapply aos_trans; eauto; apply aos_snoc.
Qed.

(** Every member of the subtree is reached. *)
Lemma resolution_reaches k t : shaped k t -> forall d p, in_tree k p -> d = (k - length p)%nat ->
  forall li, li < leaf_count k -> leaf_at t li <> None -> ancestor_or_self p (leafPath k li) ->
  exists q n, In q (resolution k t d p) /\ at_path k t q = Some n /\ known_to k li q n.
Proof.
  intros Sh. induction d as [|d IH]; intros p Hp Hd li Hli Hm Ha; cbn [resolution]; destruct (at_path k t p) as [[l|pn]|] eqn:E.
  1, 4: pose proof E as El; apply Sh in El; auto; cbn in El; apply aos_same in Ha; [|now rewrite leafPath_length]; subst p;
        exists (leafPath k li), (NLeaf l); splits; [now left|assumption|now left].
  1, 3: pose proof E as El; apply Sh in El; auto; cbn in El;
        assert (Hab : above p (leafPath k li)) by (apply aos_above in Ha; destruct Ha as [Ha|]; auto; subst p; rewrite leafPath_length in El; lia);
        (destruct (in_dec N.eq_dec li (pn_unmergedLeaves pn)) as [Hin|Hn];
         [exists (leafPath k li); rewrite (shaped_leaf k) by assumption; destruct (leaf_at t li) as [l|]; [|congruence]; exists (NLeaf l);
          splits; [right; now apply in_map|reflexivity|now left]
         |exists p, (NParent pn); splits; [now left|assumption|right; auto]]).
  - exfalso. apply aos_same in Ha; [|rewrite leafPath_length; unfold in_tree in Hp; lia]. subst p.
    rewrite (shaped_leaf k) in E by assumption. destruct (leaf_at t li); [discriminate|congruence].
  - assert (Hlt : (length p < k)%nat) by lia. apply aos_child in Ha. destruct Ha as [Ha|(b & Ha)].
    { subst p. rewrite leafPath_length in Hlt. lia. }
    destruct (IH (p ++ [b])) with (li := li) as (q & n & Q1 & Q2); auto; [now apply snoc_in|rewrite app_length; cbn; lia|].
    exists q, n. split; [|assumption]. apply in_app_iff. destruct b; auto.
Qed.

(** ** Positions *)
Lemma position_spec x l1 l2 : ~ In x l1 -> position x (l1 ++ x :: l2) = Some (length l1).
Proof.
  induction l1 as [|y l1 IH]; intros H; cbn [app position length].
  - now rewrite N.eqb_refl.
  - rewrite (proj2 (N.eqb_neq y x)) by (intros ->; apply H; now left). rewrite IH; [reflexivity|]. intros Hx. apply H. now right.
Qed.
Lemma position_none x l : position x l = None <-> ~ In x l.
Proof.
  induction l as [|y l IH]; cbn [position]; [split; auto; intros _ []|]. destruct (N.eqb_spec y x) as [->|Hn].
  - split; [discriminate|]. intros H. exfalso. apply H. now left.
  - destruct (position x l); cbn [option_map].
    + split; [discriminate|]. intros H. exfalso. assert (~ In x l) by (intros Hx; apply H; now right). now apply IH in H0.
    + split; auto. intros _ [E|Hx]; [congruence|]. now apply IH in Hx.
Qed.

(** The first known key of a resolution *)
Lemma findPriv_spec k (priv : privTree) : full k priv -> forall R i, (forall q, In q R -> in_tree k q) ->
  match findPriv priv i (map (number k) R) with
  | Ok (Some (j, key)) => exists j' q, j = (i + j')%nat /\ nth_error R j' = Some q /\ at_path k priv q = Some key
  | Ok None => forall q, In q R -> at_path k priv q = None
  | _ => False
  end.
Proof.
  intros F. induction R as [|q R IH]; intros i HR; cbn [map findPriv]; [intros q []|].
  rewrite (at_path_getN k) by (auto; apply HR; now left). cbn [rbind]. destruct (at_path k priv q) as [key|] eqn:E.
  - exists 0%nat, q. splits; auto.
  - specialize (IH (S i) (fun q Hq => HR q (or_intror Hq))). destruct (findPriv priv (S i) (map (number k) R)) as [[[j key]|]| | |]; auto.
    + destruct IH as (j' & q' & -> & H1 & H2). exists (S j'), q'. splits; auto; lia.
    + intros q' [<-|Hq]; auto.
Qed.

(** ** The place where two leaves part *)
Lemma leaves_part k li r : li < leaf_count k -> r < leaf_count k -> li <> r ->
  exists a b s1 s2, leafPath k li = a ++ b :: s1 /\ leafPath k r = a ++ negb b :: s2.
Proof.
  intros H1 H2 Hne. assert (Hp : leafPath k li <> leafPath k r) by (intros E; now apply leafPath_inj in E).
  assert (Hl : length (leafPath k li) = length (leafPath k r)) by now rewrite !leafPath_length.
  revert Hp Hl. generalize (leafPath k li) (leafPath k r). clear. induction p as [|b p IH]; intros [|c q] Hn Hl; try discriminate; [congruence|].
  destruct (Bool.bool_dec b c) as [->|Hb].
  - destruct (IH q) as (a & b & s1 & s2 & -> & ->); [congruence|cbn in Hl; lia|]. exists (c :: a), b, s1, s2. auto.
  - exists [], b, p, q. split; [reflexivity|]. destruct b, c; try reflexivity; congruence.
Qed.
Lemma commonAncestor_part k a b s1 s2 : fits k -> in_tree k (a ++ b :: s1) -> in_tree k (a ++ negb b :: s2) ->
  commonAncestor (number k (a ++ b :: s1)) (number k (a ++ negb b :: s2)) = number k a.
Proof.
  intros Hk H1 H2. destruct (commonAncestor_lowest k _ _ Hk H1 H2) as (r & Hr & -> & A1 & A2 & A3).
  assert (Ha : ancestor_or_self a r) by (apply A3; eexists; reflexivity).
  apply aos_child in Ha. destruct Ha as [->|(c & Ha)]; [reflexivity|].
  pose proof (aos_trans _ _ _ Ha A1) as (x & X). pose proof (aos_trans _ _ _ Ha A2) as (y & Y).
  rewrite <- app_assoc in X, Y. apply app_inv_head in X, Y. injection X as X _. injection Y as Y _. subst c. now destruct b.
Qed.
(** Leaves to the left have smaller numbers. *)
Lemma number_app k a s1 s2 : (length a <= k)%nat -> in_tree (k - length a) s1 -> in_tree (k - length a) s2 ->
  (number k (a ++ s1) <? number k (a ++ s2)) = (number (k - length a) s1 <? number (k - length a) s2).
Proof.
  revert k. induction a as [|c a IH]; intros k Hl H1 H2; cbn [app length].
  - now rewrite Nat.sub_0_r.
  - destruct k as [|k]; [cbn in Hl; lia|]. cbn [length] in *. replace (S k - S (length a))%nat with (k - length a)%nat in * by lia.
    rewrite <- (IH k) by (auto; lia). cbn [number]. destruct c; [|reflexivity].
    destruct (N.ltb_spec (number k (a ++ s1)) (number k (a ++ s2))), (N.ltb_spec (node_count k + 1 + number k (a ++ s1)) (node_count k + 1 + number k (a ++ s2))); lia.
Qed.
Lemma part_order k a b s1 s2 : in_tree k (a ++ b :: s1) -> in_tree k (a ++ negb b :: s2) ->
  (number k (a ++ negb b :: s2) <? number k (a ++ b :: s1)) = b.
Proof.
  intros H1 H2. unfold in_tree in *. rewrite app_length in *. cbn [length] in *. rewrite number_app by (unfold in_tree; cbn [length]; lia).
  remember (k - length a)%nat as j. destruct j as [|j]; [lia|]. cbn [number].
  assert (L1 : number j s1 < node_count j) by (apply number_lt; unfold in_tree; lia).
  assert (L2 : number j s2 < node_count j) by (apply number_lt; unfold in_tree; lia).
  destruct b; cbn [negb]; [apply N.ltb_lt|apply N.ltb_ge]; lia.
Qed.
Lemma part_child k a b s1 s2 : fits k -> in_tree k (a ++ b :: s1) -> in_tree k (a ++ negb b :: s2) ->
  (if number k (a ++ negb b :: s2) <? number k (a ++ b :: s1) then left (number k a) else right (number k a)) = Some (number k (a ++ [negb b])).
Proof.
  intros Hk H1 H2. rewrite part_order by assumption.
  assert (Hl : (length a < k)%nat) by (unfold in_tree in H1; rewrite app_length in H1; cbn in H1; lia).
  destruct b; [now apply path_left|now apply path_right].
Qed.

(** The filtered direct path goes up. *)
Lemma filtered_sorted k t p : StronglySorted (fun x y => above (fst y) (fst x)) (filtered k t p).
Proof.
  induction p as [|b q IH] using rev_ind; [constructor|]. rewrite filtered_snoc. destruct (blank_below _ _ _ _); cbn [app]; [assumption|].
  constructor; [assumption|]. apply Forall_forall. intros [a s] H. cbn [fst]. apply filtered_In in H. destruct H as (c & r & -> & _). exists c, r. reflexivity.
Qed.
Lemma sorted_split {A} (R : A -> A -> Prop) l1 x l2 : StronglySorted R (l1 ++ x :: l2) ->
  (forall y, In y l1 -> R y x) /\ (forall y, In y l2 -> R x y).
Proof.
  induction l1 as [|y l1 IH]; cbn [app]; intros H; apply StronglySorted_inv in H; destruct H as [H1 H2].
  - split; [intros y []|]. now apply Forall_forall.
  - destruct (IH H1) as [A1 A2]. split; [|assumption]. intros z [<-|Hz]; [|auto]. rewrite Forall_forall in H2. apply H2. apply in_app_iff. right. now left.
Qed.

Section WithCrypto.
Context {C : crypto}.

Lemma node_keys_iff cs s pub priv : node_keys cs s pub priv <->
  exists node, deriveSecret cs s (str "node") = Ok node /\ deriveEncryptionKeyPair cs node = Ok (pub, priv).
Proof.
  unfold node_keys, deriveEncryptionKeyPair, describe. cbv zeta. rewrite suite_eq. pose proof (gives_deriveSecret cs s (str "node")) as [G1 G2]. split.
  - intros (d & Hd & Hl & Hk). exists (DeriveSecret cs s (str "node")). split; [apply G2; split; [exists d; now rewrite suite_eq|reflexivity]|].
    rewrite Hd. cbn [rbind]. rewrite Hl, N.eqb_refl, Hk. reflexivity.
  - intros (n & Hn & H). apply G1 in Hn. subst n. destruct (cipherSuiteDescriptions cs) as [d|]; [|discriminate]. cbn [rbind] in H.
    exists d. split; [reflexivity|]. destruct (N.eqb_spec (lenN (DeriveSecret cs s (str "node"))) (seedSize (sd_kem d))); [|discriminate].
    apply Ok_inj in H. auto.
Qed.
Lemma node_keys_next cs s pub priv : node_keys cs s pub priv -> deriveSecret cs s (str "path") = Ok (DeriveSecret cs s (str "path")).
Proof. intros (d & Hd & _). apply (gives_deriveSecret cs s (str "path")). split; [now exists d|reflexivity]. Qed.
Lemma nextSecret cs s s' : deriveSecret cs s (str "path") = Ok s' -> s' = DeriveSecret cs s (str "path").
Proof. apply (gives_deriveSecret cs s (str "path")). Qed.
Lemma sent_cons cs k t new ctx a c l nodes s z : sent cs k t new ctx ((a, c) :: l) nodes s z <->
  exists u nodes', nodes = u :: nodes' /\ (exists priv, node_keys cs s (upn_encryptionKey u) priv) /\
    Forall2 (encrypted cs k t ctx s) (filter (fun q => negb (is_new k new q)) (resolution k t (k - length c) c)) (upn_encryptedPathSecret u) /\
    exists s', deriveSecret cs s (str "path") = Ok s' /\ sent cs k t new ctx l nodes' s' z.
Proof.
  destruct nodes as [|u nodes]; cbn [sent]; split.
  - intros [].
  - intros (u & n' & E & _). discriminate.
  - intros ((priv & H1) & H2 & H3). exists u, nodes. splits; eauto. exists (DeriveSecret cs s (str "path")). split; [now apply node_keys_next in H1|assumption].
  - intros (u' & n' & [= <- <-] & H1 & H2 & s' & Es & H3). apply nextSecret in Es. subst s'. auto.
Qed.
Lemma keyed_cons cs k t a l s : keyed_from cs k t (a :: l) s <->
  (exists n priv, at_path k t a = Some n /\ node_keys cs s (node_encryptionKey n) priv) /\
  exists s', deriveSecret cs s (str "path") = Ok s' /\ keyed_from cs k t l s'.
Proof.
  cbn [keyed_from]. split.
  - intros [(n & priv & E & H) K]. split; [eauto|]. exists (DeriveSecret cs s (str "path")). split; [now apply node_keys_next in H|assumption].
  - intros [H (s' & Es & K)]. apply nextSecret in Es. subst s'. auto.
Qed.
Lemma keys_cons cs k t a l s priv : keys_from cs k t (a :: l) s priv <->
  (exists n key, at_path k t a = Some n /\ at_path k priv a = Some key /\ node_keys cs s (node_encryptionKey n) key) /\
  exists s', deriveSecret cs s (str "path") = Ok s' /\ keys_from cs k t l s' priv.
Proof.
  cbn [keys_from]. split.
  - intros [(n & key & E & E2 & H) K]. split; [eauto|]. exists (DeriveSecret cs s (str "path")). split; [now apply node_keys_next in H|assumption].
  - intros [H (s' & Es & K)]. apply nextSecret in Es. subst s'. auto.
Qed.
Lemma encrypted_iff cs k t ctx s q c : encrypted cs k t ctx s q c <->
  exists n raw rnd, at_path k t q = Some n /\ putGroupContext ctx = Ok raw /\
    encryptWithLabel cs (node_encryptionKey n) (str "UpdatePathNode") raw s rnd = Ok (hc_kemOutput c, hc_ciphertext c).
Proof.
  unfold encrypted. split.
  - intros ((raw & Er & Hl) & n & rnd & En & (d & Hd & H)). exists n, raw, rnd. splits; auto. pose proof (writes_groupContext ctx raw Er) as ->.
    unfold encryptWithLabel. rewrite labelled_fits by (assumption || reflexivity). cbn [rbind]. rewrite suite_eq in Hd. unfold describe. rewrite Hd.
    cbn [rbind]. now rewrite H.
  - intros (n & raw & rnd & En & Er & H). split.
    + exists raw. split; [assumption|]. unfold encryptWithLabel in H. apply rbind_ok in H as (m & Hm & _). now apply labelled_bound in Hm.
    + exists n, rnd. split; [assumption|]. rewrite <- (writes_groupContext ctx raw Er). now apply encrypt_only.
Qed.

Lemma nodePriv_iff cs s pub priv : nodePrivFromPathSecret cs s pub = Ok priv <-> node_keys cs s pub priv.
Proof.
  rewrite node_keys_iff. unfold nodePrivFromPathSecret. split.
  - intros H. apply rbind_ok in H. destruct H as (ns & E1 & H). apply rbind_ok in H. destruct H as ([pub' priv'] & E2 & H).
    destruct (bytes_eqb pub' pub) eqn:Eb; [|discriminate]. apply bytes_eqb_true in Eb. apply Ok_inj in H. subst. eauto.
  - intros (ns & -> & E). cbn [rbind]. rewrite E. cbn [rbind]. now rewrite (proj2 (bytes_eqb_true _ _) eq_refl).
Qed.
Lemma node_keys_opens cs s pub priv : crypto_ok C -> node_keys cs s pub priv -> opens cs priv pub.
Proof.
  intros OK H. apply node_keys_iff in H as (ns & _ & E). unfold deriveEncryptionKeyPair in E. apply rbind_ok in E. destruct E as (d & Ed & E).
  unfold describe in Ed. destruct (cipherSuiteDescriptions cs) as [d'|] eqn:Ec; [|discriminate]. apply Ok_inj in Ed. subst d'.
  destruct (N.eqb_spec (lenN ns) (seedSize (sd_kem d))) as [El|]; [|discriminate]. apply Ok_inj in E.
  exists d. split; [assumption|]. pose proof (ok_derive C OK (sd_kem d) ns El) as H. rewrite E in H. exact H.
Qed.
Lemma opens_decrypts cs k t ctx s q c n priv : at_path k t q = Some n -> opens cs priv (node_encryptionKey n) -> encrypted cs k t ctx s q c ->
  decryptPathSecret cs priv ctx c = Ok s.
Proof.
  intros En (d & Ed & Hp) H. apply encrypted_iff in H as (n' & raw & rnd & En' & Er & E). rewrite En in En'. injection En' as <-.
  unfold decryptPathSecret. rewrite Er. cbn [rbind]. unfold encryptWithLabel in E. unfold decryptWithLabel.
  apply rbind_ok in E. destruct E as (ectx & -> & E). cbn [rbind]. unfold describe in *. rewrite Ed in *. cbn [rbind] in *.
  destruct (Hp (sd_kdf d) (sd_aead d) ectx rnd s) as (ko & ct & E1 & E2). rewrite E1 in E. apply Ok_inj in E. injection E as <- <-. now rewrite E2.
Qed.

(** ** What is sent along a path *)
Lemma sent_split cs k t new ctx l1 a c l2 : forall nodes s z, sent cs k t new ctx (l1 ++ (a, c) :: l2) nodes s z ->
  exists n1 u n2 s0 s', nodes = n1 ++ u :: n2 /\ length n1 = length l1 /\
    (exists priv, node_keys cs s0 (upn_encryptionKey u) priv) /\
    Forall2 (encrypted cs k t ctx s0) (filter (fun q => negb (is_new k new q)) (resolution k t (k - length c) c)) (upn_encryptedPathSecret u) /\
    deriveSecret cs s0 (str "path") = Ok s' /\ sent cs k t new ctx l2 n2 s' z.
Proof.
  induction l1 as [|[a' c'] l1 IH]; intros nodes0 s z H; cbn [app] in H;
    apply sent_cons in H as (u & nodes & -> & H1 & H2 & s' & H3 & H4).
  - exists [], u, nodes, s, s'. splits; auto.
  - destruct (IH nodes s' z H4) as (n1 & u' & n2 & s0 & s0' & -> & El & H). exists (u :: n1), u', n2, s0, s0'. splits; try apply H; auto. cbn [length]. lia.
Qed.
Lemma sent_length cs k t new ctx : forall l nodes s z, sent cs k t new ctx l nodes s z -> length l = length nodes.
Proof.
  induction l as [|[a c] l IH]; intros [|u nodes] s z H; cbn [sent] in H; try contradiction; [reflexivity|].
  destruct H as (_ & _ & H). cbn [length]. f_equal. eauto.
Qed.

(** The private keys further up *)
Lemma derivePath_sent cs k t new ctx : crypto_ok C -> full k t -> forall l nodes h priv s s' z,
  deriveSecret cs s (str "path") = Ok s' -> sent cs k t new ctx l nodes s' z -> linked cs k t l nodes h ->
  NoDup (map fst l) -> (forall a, In a (map fst l) -> in_tree k a) -> full k priv ->
  exists priv' s'', derivePath cs t priv s (map (number k) (map fst l)) = Ok (priv', s'') /\
    deriveSecret cs s'' (str "path") = Ok z /\ full k priv' /\
    (forall a, In a (map fst l) -> exists n key, at_path k t a = Some n /\ at_path k priv' a = Some key /\ opens cs key (node_encryptionKey n)) /\
    (forall q, in_tree k q -> ~ In q (map fst l) -> at_path k priv' q = at_path k priv q).
Proof.
  intros OK F. induction l as [|[a c] l IH]; intros [|u nodes] h priv s s' z Es Hs Hl Hd Hin Fp; cbn [sent] in Hs; cbn [linked] in Hl; try contradiction.
  - cbn [map derivePath]. exists priv, s. subst z. splits; auto. intros a [].
  - cbn [map fst derivePath]. cbn [map fst] in Hd, Hin. rewrite Es. cbn [rbind].
    destruct Hl as (h' & Ha & _ & Hl). destruct Hs as ((key & Hk) & _ & Hs). pose proof (node_keys_next _ _ _ _ Hk) as Es2. set (s2 := DeriveSecret cs s' (str "path")) in *.
    assert (Ha' : in_tree k a) by (apply Hin; now left).
    rewrite (at_path_getN k) by assumption. rewrite Ha. cbn [rbind node_encryptionKey pn_encryptionKey].
    rewrite (proj2 (nodePriv_iff cs s' (upn_encryptionKey u) key) Hk). cbn [rbind].
    destruct (set_path k priv a (Some key) Fp Ha') as (priv1 & -> & F1 & A1 & O1). cbn [rbind].
    inversion Hd as [|? ? Hna Hd']. subst.
    destruct (IH nodes h' priv1 s' s2 z Es2 Hs Hl Hd' (fun a Ha => Hin a (or_intror Ha)) F1) as (priv' & s'' & E & Ez & F' & K & O).
    exists priv', s''. splits; auto.
    + intros x [<-|Hx]; [|auto]. exists (NParent (mkParentNode (upn_encryptionKey u) h' [])), key. splits; auto.
      * rewrite O by auto. exact A1.
      * cbn [node_encryptionKey pn_encryptionKey]. now apply (node_keys_opens cs s').
    + intros q Hq Hn. rewrite O, O1; auto; intros Hx; apply Hn; [left; now symmetry|now right].
Qed.

Lemma resolve_copath cs k t t' li up a b r : shaped k t -> lists_members_below k t -> shaped k t' -> merged cs k t t' li up ->
  leafPath k li = a ++ b :: r -> let c := a ++ [negb b] in
  resolve t' (number k c) = Ok (map (number k) (resolution k t' (k - length c) c)) /\
  resolution k t' (k - length c) c = resolution k t (k - length c) c.
Proof.
  intros Sh L Sh' (_ & Hli & _ & _ & _ & O) E c.
  assert (Hb : beside (leafPath k li) c) by (exists a, b, r; auto).
  assert (Hc : in_tree k c) by (eapply beside_in; eauto; apply leafPath_in).
  assert (Eq : forall q, in_tree k q -> ancestor_or_self c q -> at_path k t' q = at_path k t q).
  { intros q Hq Ha. destruct (beside_not_above _ _ _ Hb Ha). now apply O. }
  assert (ER : resolution k t' (k - length c) c = resolution k t (k - length c) c) by (apply resolution_ext; auto).
  split; [|exact ER]. rewrite ER.
  rewrite resolve_eq. assert (Hf : (k - length c <= 32)%nat) by (destruct Sh as [[Hk _] _]; unfold fits in Hk; lia).
  revert Hf. generalize 32%nat as fuel. remember (k - length c)%nat as d eqn:Hd. clear Hb ER. clearbody c. revert c Hc Eq Hd.
  induction d as [|d IH]; intros c Hc Eq Hd fuel Hf; rewrite (resolve_step k t' c Sh' Hc); cbn [resolution]; rewrite (Eq c Hc (aos_refl c));
    destruct (at_path k t c) as [[l|pn]|] eqn:En; try reflexivity.
  1, 3: cbn [map]; f_equal; f_equal; rewrite map_map; apply map_ext_in; intros u Hu; destruct (L c pn u Hc En Hu) as (U & _);
        rewrite leafPath_number by assumption; apply (nodeIndexOf_leaf k); auto; apply Sh.
  - replace (length c) with k by (unfold in_tree in Hc; lia). now rewrite Nat.eqb_refl.
  - rewrite (proj2 (Nat.eqb_neq (length c) k)) by lia. destruct fuel as [|fuel]; [lia|].
    assert (Hlt : (length c < k)%nat) by lia.
    rewrite !IH; cbn [rbind]; try (now apply snoc_in); try (rewrite app_length; cbn; lia); try lia; try (now rewrite map_app);
      intros q Hq Ha; apply Eq; auto; eapply aos_trans; eauto; apply aos_snoc.
Qed.

Theorem decryptPathSecrets_ok cs k t t' new ctx li r up z priv : crypto_ok C ->
  shaped k t -> lists_members_below k t -> shaped k t' ->
  update_path cs k t t' new ctx li up z ->
  r < leaf_count k -> r <> li -> leaf_at t r <> None -> holds_keys cs k t priv r ->
  (forall u a, In u new -> ancestor_or_self a (leafPath k r) -> ancestor_or_self a (leafPath k u) -> ancestor_or_self a (leafPath k li)) ->
  exists priv', decryptPathSecrets cs t' ctx li r up priv = Ok (z, priv') /\ holds_keys cs k t' priv' r.
Proof.
  intros OK Sh L Sh' [M (s & Hs)] Hr Hne Hm [K1 K2 K3 K4] Hnew.
  pose proof M as (F' & Hli & A' & Lk & B' & O'). pose proof (proj1 F') as Hk. pose proof (shaped_full _ _ Sh) as F.
  assert (Fp : full k priv) by (split; [assumption|]; rewrite K1; apply F).
  destruct (leaves_part k li r Hli Hr (not_eq_sym Hne)) as (a & b & s1 & s2 & E1 & E2).
  set (c := a ++ [negb b]).
  assert (H1 : in_tree k (a ++ b :: s1)) by (rewrite <- E1; apply leafPath_in).
  assert (H2 : in_tree k (a ++ negb b :: s2)) by (rewrite <- E2; apply leafPath_in).
  assert (Hcr : ancestor_or_self c (leafPath k r)) by (exists s2; unfold c; rewrite E2, <- app_assoc; reflexivity).
  assert (Hb : beside (leafPath k li) c) by (exists a, b, s1; auto).
  assert (Hc : in_tree k c) by (eapply beside_in; eauto; apply leafPath_in).
  assert (Har : above a (leafPath k r)) by (exists (negb b), s2; assumption).
  assert (Hal : above a (leafPath k li)) by (exists b, s1; assumption).
  assert (Ha : in_tree k a) by (eapply above_in; eauto; apply leafPath_in).
  assert (Ef : filtered k t' (leafPath k li) = filtered k t (leafPath k li)).
  { apply filtered_ext; [apply leafPath_in|]. auto. }
  set (FD := filtered k t (leafPath k li)) in *.
  assert (Hin : In (a, c) FD).
  { unfold FD, filtered. apply filter_In. split.
    - clear - E1. unfold c. rewrite E1. clear. induction s1 as [|x s1 IH] using rev_ind.
      + rewrite proper_ancestors_snoc, siblings_up_snoc. now left.
      + change (a ++ b :: s1 ++ [x]) with (a ++ (b :: s1) ++ [x]). rewrite app_assoc, proper_ancestors_snoc, siblings_up_snoc. now right.
    - cbn [snd]. destruct (blank_below k t (k - length c) c) eqn:Eb; [|reflexivity]. exfalso.
      pose proof (blank_below_spec k t _ c Hc eq_refl) as HB. rewrite Eb in HB. pose proof (proj1 HB eq_refl (leafPath k r) (leafPath_in _ _) Hcr) as Hx.
      rewrite (shaped_leaf k) in Hx by assumption. destruct (leaf_at t r); [discriminate|congruence]. }
  apply in_split in Hin. destruct Hin as (l1 & l2 & Efd).
  assert (Hnd : NoDup (map fst FD)) by apply filtered_NoDup.
  assert (Hsort : StronglySorted (fun x y => above (fst y) (fst x)) FD) by apply filtered_sorted.
  assert (Habove : forall x, In x (map fst FD) -> above x (leafPath k li)) by (intros x; apply filtered_above).
  rewrite Efd in Hs, Lk, Hnd, Hsort. rewrite Efd in Habove. apply sorted_split in Hsort. destruct Hsort as [S1 S2].
  destruct (sent_split cs k t' new ctx l1 a c l2 _ _ _ Hs) as (n1 & u & n2 & s0 & s' & En & Eln & (keyA & HkA) & Henc & Es' & Hs2).
  assert (Lk2 : exists h h', at_path k t' a = Some (NParent (mkParentNode (upn_encryptionKey u) h [])) /\ linked cs k t' l2 n2 h').
  { rewrite En in Lk. clear - Lk Eln. revert n1 Eln Lk. generalize (ln_parentHash (up_leafNode up)). induction l1 as [|[x y] l1 IH]; intros h [|v n1] Eln Lk; try discriminate; cbn [app linked] in Lk.
    - destruct Lk as (h' & X1 & _ & X2). eauto.
    - destruct Lk as (h' & _ & _ & X). apply (IH h' n1); auto. }
  destruct Lk2 as (h0 & h2 & Ea & Lk2).
  rewrite map_app in Hnd. cbn [map fst] in Hnd.
  assert (Hna1 : ~ In a (map fst l1)) by (intros X; apply NoDup_remove_2 in Hnd; apply Hnd; apply in_app_iff; now left).
  assert (Hna2 : ~ In a (map fst l2)) by (intros X; apply NoDup_remove_2 in Hnd; apply Hnd; apply in_app_iff; now right).
  assert (Hnd2 : NoDup (map fst l2)) by (apply NoDup_remove_1 in Hnd; clear - Hnd; induction l1; [exact Hnd|]; cbn [map app] in Hnd; inversion Hnd; auto).
  assert (Hin2 : forall x, In x (map fst l2) -> in_tree k x).
  { intros x Hx. eapply above_in; [apply Habove|apply leafPath_in]. rewrite map_app. apply in_app_iff. right. now right. }
  assert (Hin1 : forall x, In x (map fst l1) -> in_tree k x).
  { intros x Hx. eapply above_in; [apply Habove|apply leafPath_in]. rewrite map_app. apply in_app_iff. now left. }
  destruct (resolve_copath cs k t t' li up a b s1 Sh L Sh' M E1) as [ER EQ]. fold c in ER, EQ.
  set (R := resolution k t' (k - length c) c) in *.
  assert (HR : forall q, In q R -> in_tree k q /\ ancestor_or_self c q /\ at_path k t q <> None).
  { rewrite EQ. intros q Hq. eapply resolution_In; eauto. }
  assert (Hfil : filter (fun q => negb (is_new k new q)) R = R).
  { apply filter_all. intros q Hq. apply Bool.negb_true_iff. apply Bool.not_true_iff_false. intros Hx. unfold is_new in Hx.
    apply existsb_exists in Hx. destruct Hx as (v & Hv & Ev). apply N.eqb_eq in Ev. destruct (HR q Hq) as (Q1 & Q2 & _).
    assert (Hv' : v < leaf_count k).
    { pose proof (number_lt k q Q1) as Hlt. rewrite node_leaf_count in Hlt. lia. }
    rewrite <- (leafPath_number k v Hv') in Ev. apply number_inj in Ev; [|assumption|apply leafPath_in]. subst q.
    pose proof (Hnew v c Hv Hcr Q2) as X. destruct (beside_not_above _ _ _ Hb (aos_refl c)) as [X1 X2].
    apply aos_above in X. destruct X; auto. }
  rewrite Hfil in Henc.
  assert (Elen : length R = length (upn_encryptedPathSecret u)) by (clear - Henc; induction Henc; cbn [length]; congruence).
  pose proof (findPriv_spec k priv Fp R 0 (fun q Hq => proj1 (HR q Hq))) as HF.
  destruct (resolution_reaches k t Sh _ c Hc eq_refl r Hr Hm Hcr) as (q0 & m0 & G1 & G2 & G3).
  rewrite <- EQ in G1.
  destruct (findPriv priv 0 (map (number k) R)) as [[[j key]|]| | |] eqn:EF; try contradiction.
  2: { exfalso. apply (K2 q0 m0); auto. apply HR in G1. apply G1. }
  destruct HF as (j' & q & -> & Hq & Hkey). cbn [Nat.add] in EF.
  destruct (HR q (nth_error_In _ _ Hq)) as (Q1 & Q2 & Q3).
  destruct (at_path k t q) as [nq|] eqn:Enq; [|congruence].
  assert (Enq' : at_path k t' q = Some nq).
  { rewrite <- Enq. destruct (beside_not_above _ _ _ Hb Q2). now apply O'. }
  assert (Hct : exists ct, nth_error (upn_encryptedPathSecret u) j' = Some ct /\ encrypted cs k t' ctx s0 q ct).
  { clear - Henc Hq. revert j' Hq. induction Henc as [|x y l l' Hxy _ IH]; intros [|j'] Hq; try discriminate.
    - injection Hq as <-. exists y. auto.
    - apply IH. exact Hq. }
  destruct Hct as (ct & Ect & Hct).
  pose proof (opens_decrypts cs k t' ctx s0 q ct nq key Enq' (K3 q nq key Q1 Enq Hkey) Hct) as Hdec.
  destruct (set_path k priv a (Some keyA) Fp Ha) as (priv1 & Eset & F1 & A1 & O1).
  destruct (derivePath_sent cs k t' new ctx OK F' l2 n2 h2 priv1 s0 s' z Es' Hs2 Lk2 Hnd2 Hin2 F1) as (priv2 & s3 & ED & Ez & F2 & KD & OD).
  exists priv2. split.
  - unfold decryptPathSecrets. rewrite !(nodeIndexOf_leaf k) by assumption. rewrite <- (leafPath_number k li Hli), <- (leafPath_number k r Hr).
    rewrite (filteredDirectPath_ok k t' _ Sh' (leafPath_in _ _)), Ef, Efd. cbn [rbind].
    assert (EL : (lenN (up_nodes up) =? lenN (map (number k) (map (@fst path path) (l1 ++ (a, c) :: l2)))) = true).
    { apply N.eqb_eq. rewrite !lenN_map. pose proof (sent_length _ _ _ _ _ _ _ _ _ Hs) as X. unfold lenN. f_equal. symmetry. exact X. }
    rewrite EL. cbn [guard rbind]. rewrite E1, E2, commonAncestor_part by assumption.
    rewrite !map_app. cbn [map fst]. rewrite position_spec.
    2: { intros X. apply in_map_iff in X. destruct X as (x & Ex & Hx). apply number_inj in Ex; auto. now subst x. }
    rewrite !map_length. change (@Datatypes.length (list bool * list bool) l1) with (@Datatypes.length (path * path) l1). rewrite En. unfold index. rewrite nth_error_app2 by lia. rewrite <- Eln, Nat.sub_diag. cbn [nth_error rbind].
    rewrite part_child by assumption. fold c. rewrite ER. cbn [rbind]. rewrite lenN_map. unfold lenN at 1 2. rewrite Elen, N.eqb_refl. cbn [guard rbind].
    rewrite EF. cbn [rbind]. rewrite Ect. cbn [rbind]. rewrite Hdec. cbn [rbind].
    rewrite (at_path_getN k) by assumption. rewrite Ea. cbn [rbind node_encryptionKey pn_encryptionKey].
    rewrite (proj2 (nodePriv_iff cs s0 (upn_encryptionKey u) keyA) HkA). cbn [rbind]. rewrite Eset. cbn [rbind].
    match goal with |- context [derivePath _ _ _ _ ?e] => replace e with (map (number k) (map (@fst path path) l2)) end.
    2: { rewrite Eln. clear. induction l1 as [|x l1 IH]; [reflexivity|]. exact IH. }
    rewrite ED. cbn [rbind]. rewrite Ez. reflexivity.
  - assert (KA : at_path k priv2 a = Some keyA) by (rewrite OD by auto; exact A1).
    assert (Up : forall x, In x (map fst l2) -> above x a).
    { intros x Hx. apply in_map_iff in Hx. destruct Hx as (y & <- & Hy). apply (S2 y Hy). }
    assert (Low : forall x, In x (map fst l1) -> above a x).
    { intros x Hx. apply in_map_iff in Hx. destruct Hx as (y & <- & Hy). apply (S1 y Hy). }
    assert (Away : forall x, in_tree k x -> ancestor_or_self x (leafPath k r) -> x <> leafPath k li /\ ~ In x (map fst l1)).
    { intros x Hx Hxr. split.
      - intros ->. apply aos_same in Hxr; [|now rewrite !leafPath_length]. apply leafPath_inj in Hxr; auto.
      - intros Hl1. destruct (Low x Hl1) as (d & w & ->). assert (Hxl : above (a ++ d :: w) (leafPath k li)) by (apply Habove; rewrite map_app; apply in_app_iff; now left).
        destruct Hxl as (d' & w' & Ex). rewrite E1, <- app_assoc in Ex. apply app_inv_head in Ex. cbn [app] in Ex. injection Ex as Ex _. subst d.
        destruct Hxr as (w2 & Ey). rewrite E2, <- app_assoc in Ey. apply app_inv_head in Ey. cbn [app] in Ey. injection Ey as Ey _. now destruct b. }
    assert (Cases : forall x n, in_tree k x -> at_path k t' x = Some n ->
              x = leafPath k li \/ In x (map fst l1) \/ (x = a \/ In x (map fst l2)) \/ at_path k t x = Some n /\ ~ In x (map fst l2) /\ x <> a).
    { intros x n Hx Ex. destruct (path_eq_dec x (leafPath k li)) as [->|Nx]; [now left|]. right. destruct (above_dec x (leafPath k li)) as [Hab|Nab].
      - destruct (in_dec path_eq_dec x (map fst FD)) as [Hi|Hi]; [|rewrite B' in Ex by auto; discriminate].
        rewrite Efd, map_app in Hi. apply in_app_iff in Hi. cbn [map fst] in Hi. destruct Hi as [Hi|[Hi|Hi]]; auto.
      - right. right. rewrite <- O' by auto. splits; auto.
        + intros Hi. apply Nab. apply Habove. rewrite map_app. apply in_app_iff. right. now right.
        + intros ->. contradiction. }
    constructor.
    + rewrite (proj2 F2). symmetry. apply F'.
    + intros x n Hx Ex Hkn. assert (Hxr : ancestor_or_self x (leafPath k r)) by (apply aos_above; destruct Hkn as [->|[X _]]; auto).
      destruct (Away x Hx Hxr) as [W1 W2]. destruct (Cases x n Hx Ex) as [X|[X|[[->|X]|(X & Y & Z)]]]; try contradiction.
      * congruence.
      * destruct (KD x X) as (? & ? & _ & -> & _). discriminate.
      * rewrite OD, O1 by auto. now apply (K2 x n).
    + intros x n key' Hx Ex Ekey. destruct (Cases x n Hx Ex) as [X|[X|[[->|X]|(X & Y & Z)]]].
      * exfalso. subst x. rewrite OD, O1 in Ekey; auto.
        -- destruct (Away (leafPath k li) Hx); auto. apply K4; auto. congruence.
        -- intros <-. eapply above_not_self; eauto.
        -- intros Hi. apply Up in Hi. eapply (above_not_self (leafPath k li)). eapply above_trans; eauto.
      * exfalso. pose proof (Low x X) as Y. rewrite OD, O1 in Ekey; auto.
        -- destruct (Away x Hx); auto. apply K4; auto. congruence.
        -- intros ->. eapply above_not_self; eauto.
        -- intros Hi. apply Up in Hi. eapply (above_not_self x). eapply above_trans; eauto.
      * rewrite KA in Ekey. injection Ekey as <-. rewrite Ea in Ex. injection Ex as <-. cbn [node_encryptionKey pn_encryptionKey]. now apply (node_keys_opens cs s0).
      * destruct (KD x X) as (n' & key2 & X1 & X2 & X3). congruence.
      * rewrite OD, O1 in Ekey by auto. now apply (K3 x n).
    + intros x Hx Hp. destruct (path_eq_dec x a) as [->|Nx]; [now apply aos_above; right|].
      destruct (in_dec path_eq_dec x (map fst l2)) as [Hi|Hi].
      * apply aos_above. right. eapply above_trans; [now apply Up|assumption].
      * apply K4; auto. rewrite OD, O1 in Hp by auto. exact Hp.
Qed.
End WithCrypto.
