(** Processing a message and joining a group neither panic nor hang, as long as
    what is processed names existing leaves. *)
From Verif Require Export SpecCrash.
From Verif Require Import RemovedFacts OutcomeFacts JoinPathFacts.

Lemma nc_ok {A} (m : res A) a : m = Ok a -> no_crash m.
Proof. intros ->. exact I. Qed.
Lemma nc_err {A} (m : res A) : (exists e, m = Err e) -> no_crash m.
Proof. intros (e & ->). exact I. Qed.
Lemma nc_rmap {A B} (f : A -> B) m : no_crash m -> no_crash (rmap f m).
Proof. destruct m; auto. Qed.
Lemma nc_getN {A} (t : list A) x : x < lenN t -> no_crash (getN t x).
Proof. intros H. destruct (getN_in t x H) as (a & ->). exact I. Qed.
Lemma nc_setN {A} (t : list A) x a : x < lenN t -> no_crash (setN t x a).
Proof. intros H. rewrite (setN_in _ _ _ H). exact I. Qed.

(** One step of a [let!] *)
Ltac nc := apply no_crash_bind; [|intros ? ?].
Ltac ncg := apply no_crash_bind; [apply no_crash_guard|intros _ _].

Section WithCrypto.
Context {C : crypto}.

(** ** Cryptography *)
Section Suite.
Context (cs : N) (d : suiteDesc) (Hd : cipherSuiteDescriptions cs = Some d).

Lemma nc_describe : no_crash (describe cs).
Proof. unfold describe. rewrite Hd. exact I. Qed.
Lemma nc_extractSize : no_crash (extractSize cs).
Proof. apply nc_rmap, nc_describe. Qed.
Lemma nc_suiteKeySize : no_crash (suiteKeySize cs).
Proof. apply nc_rmap, nc_describe. Qed.
Lemma nc_suiteNonceSize : no_crash (suiteNonceSize cs).
Proof. apply nc_rmap, nc_describe. Qed.
Lemma nc_hashSum m : no_crash (hashSum cs m).
Proof. unfold hashSum. nc; [apply nc_describe|exact I]. Qed.
Lemma nc_extract a b : no_crash (extract cs a b).
Proof. unfold extract. nc; [apply nc_describe|exact I]. Qed.
Lemma nc_signMAC a b : no_crash (signMAC cs a b).
Proof. unfold signMAC. nc; [apply nc_describe|exact I]. Qed.
Lemma nc_verifyMAC a b t : no_crash (verifyMAC cs a b t).
Proof. unfold verifyMAC. nc; [apply nc_signMAC|exact I]. Qed.
Lemma nc_refHash l v : no_crash (refHash cs l v).
Proof. unfold refHash, putRefHashInput. nc; [apply wapp_no_crash; apply writeOpaqueVec_no_crash|apply nc_hashSum]. Qed.
Lemma nc_expand s l c n : n <= 255 * 32 -> no_crash (expandWithLabel cs s l c n).
Proof.
  intros Hn. unfold expandWithLabel, putKdfLabel. nc.
  { apply wapp_no_crash; [exact I|]. apply wapp_no_crash; apply writeOpaqueVec_no_crash. }
  nc; [apply nc_describe|]. assert (hashSize (sd_kdf a0) >= 32) by (destruct (sd_kdf a0); cbn; lia).
  destruct (255 * hashSize (sd_kdf a0) <? n) eqn:E; [apply N.ltb_lt in E; lia|exact I].
Qed.
Lemma extractSize_le n : extractSize cs = Ok n -> n <= 255 * 32.
Proof. intros H. apply extractSize_some in H. destruct H as (? & ? & ->). apply secretSize_small. Qed.
Lemma nc_deriveSecret s l : no_crash (deriveSecret cs s l).
Proof. unfold deriveSecret. nc; [apply nc_extractSize|]. apply nc_expand. now apply extractSize_le. Qed.
Lemma expand_len s l c n r : crypto_ok C -> expandWithLabel cs s l c n = Ok r -> lenN r = n.
Proof. intros Hok H. apply expandWithLabel_ok in H. destruct H as (d1 & info & _ & _ & _ & ->). apply (ok_expand C Hok). Qed.
Lemma keySize_le n : suiteKeySize cs = Ok n -> n <= 255 * 32 /\ n = aeadKeySize (sd_aead d).
Proof. unfold suiteKeySize, describe. rewrite Hd. cbn [rmap]. intros [= <-]. destruct (sd_aead d); cbn; lia. Qed.
Lemma nonceSize_le n : suiteNonceSize cs = Ok n -> n <= 255 * 32 /\ n = 12.
Proof. unfold suiteNonceSize, describe. rewrite Hd. cbn [rmap]. intros [= <-]. unfold aeadNonceSize; lia. Qed.

Lemma nc_labelled l c : no_crash (putLabelled l c).
Proof. unfold putLabelled. apply wapp_no_crash; apply writeOpaqueVec_no_crash. Qed.
Lemma nc_decryptWithLabel k l c ko ct : no_crash (decryptWithLabel cs k l c ko ct).
Proof. unfold decryptWithLabel. nc; [apply nc_labelled|]. nc; [apply nc_describe|]. destruct (cr_hpkeOpen _ _ _ _ _ _ _ _); exact I. Qed.
Lemma nc_aeadOpen key nonce aad ct : lenN nonce = 12 -> no_crash (aeadOpen cs key nonce aad ct).
Proof.
  intros Hn. unfold aeadOpen. nc; [apply nc_describe|]. destruct (negb (lenN key =? _)); [exact I|].
  replace (lenN nonce =? aeadNonceSize (sd_aead a)) with true by (symmetry; apply N.eqb_eq; rewrite Hn; reflexivity).
  cbn [negb]. destruct (cr_aeadOpen _ _ _ _ _ _); exact I.
Qed.

(** Verifying with a key that the scheme takes *)
Lemma nc_verifyWithLabel k l c s : usable_key d k -> no_crash (verifyWithLabel cs k l c s).
Proof.
  intros Hv. unfold verifyWithLabel. pose proof (nc_labelled l c). destruct (putLabelled l c); auto.
  unfold describe. rewrite Hd. apply Hv.
Qed.
Lemma nc_falseOnPutErr w k : no_crash w -> (forall raw, w = Ok raw -> no_crash (k raw)) -> no_crash (falseOnPutErr w k).
Proof. destruct w; cbn; auto. Qed.
Lemma nc_falseOnErr m : no_crash m -> no_crash (falseOnErr m).
Proof. destruct m; cbn; auto. Qed.
Lemma nc_leafSignature gid li l : usable_key d (ln_signatureKey l) -> no_crash (putLeafNodeTBS l gid li) -> no_crash (leafNodeVerifySignature cs gid li l).
Proof. unfold leafNodeVerifySignature. destruct (putLeafNodeTBS l gid li); auto. intros Hv _. now apply nc_verifyWithLabel. Qed.
Lemma nc_leafVerify l o : usable_key d (ln_signatureKey l) -> wf_leafNode l -> vo_cipherSuite o = cs -> no_crash (leafNodeVerify l o).
Proof.
  intros Hv Hl Ho. unfold leafNodeVerify. rewrite Ho. nc; [apply nc_leafSignature; auto with wsafe|]. repeat ncg. apply no_crash_guard.
Qed.
Lemma nc_keyPackageVerify k ctx : usable_key d (ln_signatureKey (kp_leafNode k)) -> wf_keyPackage k -> gc_cipherSuite ctx = cs -> no_crash (keyPackageVerify k ctx).
Proof.
  intros Hv Hk Hc. unfold keyPackageVerify. ncg. destruct (kp_cipherSuite k =? gc_cipherSuite ctx) eqn:E; cbn [guard]; [|exact I].
  apply N.eqb_eq in E. cbn [rbind]. ncg. nc; [|ncg; apply no_crash_guard].
  unfold keyPackageVerifySignature. pose proof (keyPackageTBS_nc k Hk). destruct (putKeyPackageTBS k); auto.
  rewrite E, Hc. now apply nc_verifyWithLabel.
Qed.
Lemma nc_authSignature ac key ctx : usable_key d key -> wf_framedContent (ac_content ac) -> gc_cipherSuite ctx = cs -> no_crash (authContentVerifySignature ac key ctx).
Proof.
  intros Hv Hw Hc. unfold authContentVerifySignature. apply nc_falseOnPutErr; [auto with wsafe|]. intros raw _. rewrite Hc. now apply nc_verifyWithLabel.
Qed.
End Suite.

(** ** Trees *)
Definition leaves_safe (t : ratchetTree) : Prop := forall l, In (Some (NLeaf l)) t -> no_crash (putLeafNode l).

Lemma at_path_In k (t : ratchetTree) p n : at_path k t p = Some n -> In (Some n) t.
Proof. unfold at_path. destruct (nth_error t _) as [o|] eqn:E; [|discriminate]. intros ->. eapply nth_error_In; eauto. Qed.
Lemma in_tree_lt k (t : ratchetTree) p : full k t -> in_tree k p -> number k p < lenN t.
Proof. intros F Hp. pose proof (at_path_getN k t p F Hp) as H. now apply getN_lt in H. Qed.

Lemma nc_treeHashLoop k t cs d ex : shaped k t -> cipherSuiteDescriptions cs = Some d -> leaves_safe t -> forall n p fuel,
  in_tree k p -> (n = k - length p)%nat -> (n <= fuel)%nat -> no_crash (treeHashLoop fuel cs t ex (number k p)).
Proof.
  intros Sh Hd Hs. induction n as [|n IH]; intros p fuel Hp Hn Hf.
  - rewrite treeHashLoop_leaf by (auto; unfold in_tree in Hp; lia). nc; [|eapply nc_hashSum; eauto].
    unfold putLeafNodeHashInput. apply wapp_no_crash; [exact I|]. apply wapp_no_crash; [exact I|].
    unfold shownLeaf. destruct (existsb _ ex); [exact I|]. destruct (at_path k t p) as [[l|pn]|] eqn:A; try exact I.
    apply wapp_no_crash; [exact I|]. apply Hs. eapply at_path_In; eauto.
  - destruct fuel as [|fuel]; [lia|]. assert (Hlt : (length p < k)%nat) by lia.
    rewrite treeHashLoop_parent by auto.
    nc; [apply IH; [now apply snoc_in|rewrite app_length; cbn; lia|lia]|].
    nc; [apply IH; [now apply snoc_in|rewrite app_length; cbn; lia|lia]|].
    nc; [|eapply nc_hashSum; eauto]. unfold putParentNodeHashInput. apply wapp_no_crash; [exact I|].
    apply wapp_no_crash; [|apply wapp_no_crash; apply writeOpaqueVec_no_crash].
    destruct (shownParent k t ex p); [|exact I]. apply wapp_no_crash; [exact I|]. apply putParentNode_nc.
Qed.
Lemma fits_depth k : fits k -> (k <= 31)%nat.
Proof. unfold fits. lia. Qed.
Lemma nc_computeTreeHash k t cs d p ex : shaped k t -> cipherSuiteDescriptions cs = Some d -> leaves_safe t -> in_tree k p ->
  no_crash (computeTreeHash cs t (number k p) ex).
Proof.
  intros Sh Hd Hs Hp. rewrite tree_hash_eq. eapply nc_treeHashLoop; eauto. pose proof (fits_depth k (proj1 (proj1 Sh))). lia.
Qed.
Lemma nc_rootTreeHash k t cs d : shaped k t -> cipherSuiteDescriptions cs = Some d -> leaves_safe t -> no_crash (computeRootTreeHash cs t).
Proof.
  intros Sh Hd Hs. rewrite (rootTreeHash_eq cs k t (proj1 Sh)), <- tree_hash_eq. eapply nc_computeTreeHash; eauto. unfold in_tree; cbn; lia.
Qed.

Lemma nc_computeParentHash cs d pn h : cipherSuiteDescriptions cs = Some d -> no_crash (computeParentHash cs pn h).
Proof.
  intros Hd. unfold computeParentHash, putParentHashInput. nc; [|eapply nc_hashSum; eauto].
  apply wapp_no_crash; [|apply wapp_no_crash]; apply writeOpaqueVec_no_crash.
Qed.

(** Merging an update path *)
Lemma leaves_safe_set t x o t' : leaves_safe t -> setN t x o = Ok t' -> (forall l, o = Some (NLeaf l) -> no_crash (putLeafNode l)) -> leaves_safe t'.
Proof.
  intros Hs H Ho l Hl. apply In_nth_error in Hl. destruct Hl as (i & Hi).
  assert (E : getN t' (N.of_nat i) = Ok (Some (NLeaf l))) by (apply getN_ok; now rewrite Nat2N.id).
  rewrite (getN_setN _ _ _ _ _ H) in E. destruct (N.of_nat i =? x).
  - apply Ho. now apply Ok_inj in E.
  - apply getN_ok in E. apply Hs. eapply nth_error_In; eauto.
Qed.
Lemma leaves_safe_blanks xs t t' : leaves_safe t -> foldM (fun t x => setN t x None) t xs = Ok t' -> leaves_safe t'.
Proof. intros Hs. apply foldM_inv with (P := leaves_safe); auto. intros s a s' _ H E. eapply leaves_safe_set; eauto. discriminate. Qed.
Lemma leaves_safe_parents {X} (f : X -> parentNode) (l : list (N * X)) t t' : leaves_safe t ->
  foldM (fun t q => setN t (fst q) (Some (NParent (f (snd q))))) t l = Ok t' -> leaves_safe t'.
Proof. intros Hs. apply foldM_inv with (P := leaves_safe); auto. intros s a s' _ H E. eapply leaves_safe_set; eauto. discriminate. Qed.

Lemma nc_mergeParentHashes cs d k p : cipherSuiteDescriptions cs = Some d -> in_tree k p ->
  forall l t prev, (forall a, In a l -> above a p) -> NoDup l -> shaped k t -> leaves_safe t -> (forall a, In a l -> exists pn, at_path k t a = Some (NParent pn)) ->
  no_crash (mergeParentHashes cs (number k p) (map (number k) (proper_ancestors p)) t prev (map (number k) l)).
Proof.
  intros Hd Hp. induction l as [|a l IH]; intros t prev Ha Hn Sh Hs Hnb; [exact I|].
  cbn [map]. change (number k a :: map (number k) l) with ([number k a] ++ map (number k) l). rewrite mergeParentHashes_app.
  pose proof (shaped_full _ _ Sh) as F. inversion Hn; subst.
  destruct (Ha a (or_introl eq_refl)) as (b & s & Ep). rewrite (mergeParentHashes_one cs k t p a b s) by auto.
  assert (Hin : in_tree k a) by (eapply above_in; eauto; now exists b, s). assert (Hlt : (length a < k)%nat) by (apply (above_lt k a p); [now exists b, s|auto]).
  unfold mergeStep. destruct (Hnb a (or_introl eq_refl)) as (pn & A). rewrite A.
  nc; [|destruct a0 as [t1 h1]].
  - nc; [eapply nc_computeTreeHash; eauto; now apply snoc_in|]. nc; [apply nc_setN; now apply in_tree_lt|]. nc; [eapply nc_computeParentHash; eauto|exact I].
  - rinv. apply pair_equal_spec in H. destruct H as [-> ->].
    destruct (set_path_inv k t a _ _ F Hin E0) as (F1 & A1 & O1).
    apply IH; auto.
    + intros; apply Ha; cbn; auto.
    + eapply shaped_set_parent; eauto.
    + eapply leaves_safe_set; eauto. discriminate.
    + intros a1 I1. destruct (path_eq_dec a1 a) as [->|Ne]; [eauto|]. destruct (Hnb a1 (or_intror I1)) as (q & Q). exists q.
      rewrite O1; auto. apply (above_in k a1 p); auto. apply Ha; cbn; auto.
Qed.

Lemma nc_mergeUpdatePath cs d k t li up : cipherSuiteDescriptions cs = Some d -> shaped k t -> designated li < leaf_count k -> leaves_safe t ->
  no_crash (mergeUpdatePath cs t li up).
Proof.
  intros Hd Sh Hli Hs. rewrite (mergeUpdatePath_unfold cs k) by auto. set (p := leafPath k (designated li)).
  pose proof (shaped_full _ _ Sh) as F. assert (Hp : in_tree k p) by apply leafPath_in.
  destruct (blank_path k t p F Hp) as (t1 & E1 & F1 & Ab & Oth). rewrite E1. cbn [rbind].
  assert (Sh1 : shaped k t1).
  { split; auto. intros q n Hq A. destruct (above_dec q p) as [B|B]; [rewrite Ab in A by auto; discriminate|]. rewrite Oth in A by auto. now apply Sh. }
  rewrite (filteredDirectPath_ok k t1 p Sh1 Hp). cbn [rbind].
  assert (Ef : filtered k t1 p = filtered k t p) by (apply filtered_ext; auto).
  rewrite Ef. destruct (lenN (map (number k) (map fst (filtered k t p))) =? lenN (up_nodes up)) eqn:El; cbn [guard rbind]; [|exact I].
  apply N.eqb_eq in El. assert (Hlen : length (filtered k t p) = length (up_nodes up)) by (unfold lenN in El; rewrite !map_length in El; lia).
  destruct (prepare k t (designated li) (up_nodes up) Sh Hli Hlen) as (t1' & t2 & E1' & _ & E2 & Sh2 & K2 & B2 & O2). fold p in E1', E2, K2, B2, O2.
  rewrite E1 in E1'. apply Ok_inj in E1'. subst t1'. rewrite E2. cbn [rbind].
  assert (Hs2 : leaves_safe t2).
  { eapply (leaves_safe_parents (fun u => mkParentNode (upn_encryptionKey u) [] [])); [eapply leaves_safe_blanks; eauto|exact E2]. }
  nc.
  - rewrite <- map_rev. eapply nc_mergeParentHashes; eauto.
    + intros a Ia. apply in_rev in Ia. eapply filtered_above; eauto.
    + apply NoDup_rev, filtered_NoDup.
    + intros a Ia. apply in_rev in Ia. eapply placed_of_keyed; eauto.
  - destruct a as [t3 prev]. ncg. apply nc_setN.
    destruct (mergeParentHashes_spec cs k p Hp (filtered k t p) (up_nodes up) t2 Sh2 K2 (filtered_NoDup _ _ _) (fun a s I => filtered_In _ _ _ _ _ I) t3 prev H) as (Sh3 & _ & _).
    apply in_tree_lt; auto. now apply shaped_full.
Qed.
Lemma nc_mergeH cs d k h t li up : cipherSuiteDescriptions cs = Some d -> proper h t -> shaped k (deref h t) -> designated li < leaf_count k -> leaves_safe (deref h t) ->
  no_crash (mergeUpdatePathH cs h t li up).
Proof.
  intros Hd Pr Sh Hli Hs. pose proof (nc_mergeUpdatePath cs d k (deref h t) li up Hd Sh Hli Hs) as N.
  destruct (mergeUpdatePath cs (deref h t) li up) as [v|e|e|] eqn:E; try easy.
  - destruct (mergeH_value cs k h t li up Pr Sh) as [M _]. destruct (M v E) as (h' & t' & -> & _). exact I.
  - unfold mergeUpdatePathH. rewrite E. exact I.
Qed.

(** ** Decrypting update paths *)
Section Suite2.
Context (OK : crypto_ok C) (cs : N) (d : suiteDesc) (Hd : cipherSuiteDescriptions cs = Some d) (Hseed : seedSize (sd_kem d) = hashSize (sd_kdf d)).

Lemma deriveSecret_len s l r : deriveSecret cs s l = Ok r -> lenN r = hashSize (sd_kdf d).
Proof.
  unfold deriveSecret. intros H. apply rbind_ok in H. destruct H as (n & En & H). apply (expand_len cs) in H; auto.
  unfold extractSize, describe in En. rewrite Hd in En. cbn [rmap] in En. now apply Ok_inj in En; subst.
Qed.
Lemma nc_nodePriv s pub : no_crash (nodePrivFromPathSecret cs s pub).
Proof.
  unfold nodePrivFromPathSecret. nc; [eapply nc_deriveSecret; eauto|]. apply deriveSecret_len in H.
  unfold deriveEncryptionKeyPair, describe. rewrite Hd. cbn [rbind]. rewrite H, Hseed, N.eqb_refl. cbn [rbind].
  destruct (cr_deriveKeyPair _ _ _). destruct (bytes_eqb _ _); exact I.
Qed.
Lemma nc_derivePath t : forall tail priv s, (forall x, In x tail -> exists n, getN t x = Ok (Some n)) -> lenN priv = lenN t ->
  no_crash (derivePath cs t priv s tail).
Proof.
  induction tail as [|x tail IH]; intros priv s Ht Hl; cbn [derivePath]; [exact I|].
  nc; [eapply nc_deriveSecret; eauto|]. destruct (Ht x (or_introl eq_refl)) as (n & E). rewrite E. cbn [rbind]. apply getN_lt in E.
  nc; [apply nc_nodePriv|]. nc; [apply nc_setN; lia|]. apply IH; [intros; apply Ht; now right|].
  apply setN_ok in H1. destruct H1 as [_ ->]. now rewrite lenN_upd.
Qed.
Lemma nc_findPriv priv : forall R i, (forall x, In x R -> x < lenN priv) -> no_crash (findPriv priv i R).
Proof.
  induction R as [|x R IH]; intros i H; cbn [findPriv]; [exact I|]. nc; [apply nc_getN, H; now left|].
  destruct a; [exact I|]. apply IH. intros; apply H; now right.
Qed.
Lemma findPriv_lt priv : forall R i j key, findPriv priv i R = Ok (Some (j, key)) -> (i <= j < i + length R)%nat.
Proof.
  induction R as [|x R IH]; intros i j key H; cbn [findPriv] in H; [discriminate|]. apply rbind_ok in H. destruct H as ([k|] & _ & H).
  - apply Ok_inj in H. assert (i = j) by congruence. cbn [length]. lia.
  - apply IH in H. cbn [length]. lia.
Qed.
Lemma nc_index {A} (l : list A) i : (i < length l)%nat -> no_crash (index l i).
Proof. intros H. unfold index. destruct (nth_error l i) eqn:E; [exact I|]. apply nth_error_None in E. lia. Qed.

Lemma nc_decryptPathSecrets k t t' ctx li me up priv : shaped k t -> shaped k t' -> merged cs k t t' (designated li) up -> me < 2 ^ 31 ->
  lenN priv = lenN t' -> lists_below t' -> no_crash (decryptPathSecrets cs t' ctx li me up priv).
Proof.
  intros Sh Sh' M Hme Hp Hl. pose proof M as (F' & Hs & _ & L & _ & O). pose proof (shaped_full _ _ Sh) as F. pose proof F as [Hk Ht].
  destruct (decrypt_cases_path cs k t' ctx li me up priv Sh' Hs Hme) as [(e & ->)|(a & b & s1 & s2 & upn & tail & Hmek & P1 & P2 & _ & (c & m1 & m2 & EL & ->) & E)]; [exact I|].
  rewrite E, openPath_eq.
  assert (Ef : filtered k t' (leafPath k (designated li)) = filtered k t (leafPath k (designated li))) by (apply filtered_ext; [apply leafPath_in|auto]).
  rewrite Ef in EL.
  assert (Nb : forall q, In q (map fst (filtered k t (leafPath k (designated li)))) -> exists n, getN t' (number k q) = Ok (Some n)).
  { intros q Hq. destruct (linked_at _ _ _ _ _ _ _ L Hq) as (i & s & u & h' & _ & _ & A). exists (NParent (mkParentNode (upn_encryptionKey u) h' [])).
    rewrite (at_path_getN k); auto; [now rewrite A|]. eapply above_in; [eapply filtered_above; eauto|apply leafPath_in]. }
  assert (Hin : in_tree k (a ++ [negb b])) by (unfold in_tree; apply (f_equal (@length bool)) in P1; rewrite leafPath_length, app_length in P1; rewrite app_length; cbn in *; lia).
  destruct (resolve_ok k t' Sh' (a ++ [negb b]) Hin) as (R & ER & HR & _). rewrite ER. cbn [rbind].
  destruct (lenN (upn_encryptedPathSecret upn) =? lenN R) eqn:El; cbn [guard rbind]; [|exact I]. apply N.eqb_eq in El.
  nc. { apply nc_findPriv. rewrite Hp. intros x Hx. destruct F' as [_ F2]. rewrite F2.
    destruct (HR x Hx) as [(q & n & H1 & H2 & -> & H4)|(q & pn & u & H1 & H2 & H3 & H4 & ->)]; [now apply number_lt|].
    destruct (proj1 (lists_paths k t' (shaped_full _ _ Sh')) Hl q pn u H1 H3 H4) as [Hu _]. rewrite nodeIndexOf_designated, <- (leafPath_number k) by assumption. apply number_lt, leafPath_in. }
  destruct a0 as [[j key]|]; [|exact I]. apply findPriv_lt in H. nc; [apply nc_index; unfold lenN in El; lia|].
  nc. { unfold decryptPathSecret. nc; [auto with wsafe|]. eapply nc_decryptWithLabel; eauto. }
  destruct (Nb a) as (n & En); [rewrite EL, map_app; apply in_elt|]. rewrite En. cbn [rbind]. apply getN_lt in En.
  nc; [apply nc_nodePriv|]. nc; [apply nc_setN; lia|]. nc.
  { apply nc_derivePath; [|apply setN_ok in H3; destruct H3 as [_ ->]; now rewrite lenN_upd].
    intros x Hx. apply in_map_iff in Hx. destruct Hx as (q & <- & Hq). apply Nb. rewrite EL, map_app. apply in_or_app. right. now right. }
  destruct a4 as [priv2 s']. nc; [eapply nc_deriveSecret; eauto|exact I].
Qed.

(** ** The key schedule *)
Lemma nc_joiner ctx a b : gc_cipherSuite ctx = cs -> no_crash (extractJoinerSecret ctx a b).
Proof.
  intros E. unfold extractJoinerSecret. rewrite E. nc; [eapply nc_extract; eauto|]. nc; [auto with wsafe|]. nc; [eapply nc_extractSize; eauto|].
  eapply nc_expand; eauto. eapply extractSize_le; eauto.
Qed.
Lemma nc_epoch ctx a b : gc_cipherSuite ctx = cs -> no_crash (extractEpochSecret ctx a b).
Proof.
  intros E. unfold extractEpochSecret. rewrite E. nc; [eapply nc_extract; eauto|]. nc; [auto with wsafe|]. nc; [eapply nc_extractSize; eauto|].
  eapply nc_expand; eauto. eapply extractSize_le; eauto.
Qed.
Lemma nc_noPsk : no_crash (extractPSKSecret cs [] []).
Proof. unfold extractPSKSecret. ncg. nc; [eapply nc_extractSize; eauto|exact I]. Qed.
Lemma nc_confirmed w c sg i : wf_framedContent c -> no_crash (confirmedTranscriptHash cs w c sg i).
Proof. intros W. unfold confirmedTranscriptHash. nc; [auto with wsafe|eapply nc_hashSum; eauto]. Qed.
Lemma nc_interim a b : no_crash (nextInterimTranscriptHash cs a b).
Proof. unfold nextInterimTranscriptHash. nc; [apply writeOpaqueVec_no_crash|eapply nc_hashSum; eauto]. Qed.
Lemma nc_nextEpoch g ac th c : gc_cipherSuite (gr_context g) = cs -> wf_framedContent (ac_content ac) -> no_crash (nextEpoch g ac th c [] []).
Proof.
  intros E W. unfold nextEpoch. rewrite E. nc; [now apply nc_confirmed|]. nc; [apply nc_interim|].
  nc; [now apply nc_joiner|]. nc; [apply nc_noPsk|]. nc; [now apply nc_epoch|]. nc; [eapply nc_deriveSecret; eauto|exact I].
Qed.

(** ** Private messages *)
Lemma nc_senderDataAAD a b c : no_crash (putSenderDataAAD a b c).
Proof. unfold putSenderDataAAD. repeat (apply wapp_no_crash; [auto using writeOpaqueVec_no_crash; exact I|]). auto with wsafe. Qed.
Lemma nc_sample ct : no_crash (sampleCiphertext cs ct).
Proof. unfold sampleCiphertext. nc; [eapply nc_extractSize; eauto|exact I]. Qed.
Lemma nc_decryptSenderData m s : no_crash (decryptSenderData cs m s).
Proof.
  unfold decryptSenderData. nc.
  { unfold expandSenderDataKey. nc; [apply nc_sample|]. nc; [eapply nc_suiteKeySize; eauto|]. eapply nc_expand; eauto. apply (keySize_le cs d Hd); assumption. }
  nc. { unfold expandSenderDataNonce. nc; [apply nc_sample|]. nc; [eapply nc_suiteNonceSize; eauto|]. eapply nc_expand; eauto. now apply (nonceSize_le cs d Hd). }
  assert (lenN a0 = 12).
  { unfold expandSenderDataNonce in H0. rinv. apply (expand_len cs) in H0; auto. destruct (nonceSize_le cs d Hd _ E0). lia. }
  nc; [apply nc_senderDataAAD|]. nc; [eapply nc_aeadOpen; eauto|]. apply unmarshal_SAFE, senderData_SAFE.
Qed.
End Suite2.

(** ** The invariant *)
Lemma leaves_safe_at t : well_shaped t -> leaves_safe t <-> forall j l, leaf_at t j = Some l -> no_crash (putLeafNode l).
Proof.
  intros W. split.
  - intros H j l E. apply H. apply leaf_index in E. eapply nth_error_In; eauto.
  - intros H l Hl. apply In_nth_error in Hl. destruct Hl as (i & Hi). destruct (index_leaf t i l W Hi) as (li & _ & E). eauto.
Qed.

Record crash_inv (g : group) : Prop := {
  ci_leaves : leaves_safe (gr_value g);
  ci_pending : Forall (fun pp => wf_proposal (pp_proposal pp) /\
                 forall l, pp_proposal pp = PUpdate l -> leaf_at (gr_value g) (designated (pp_sender pp)) <> None) (gr_pending g)
}.

Lemma shown_single l : at_path 0 [Some (NLeaf l)] [] = Some (NLeaf l).
Proof. reflexivity. Qed.
Lemma created_inv gid kpp rnd g : createGroup gid kpp rnd = Ok g -> crash_inv g.
Proof.
  intros H. unfold createGroup in H. cbv zeta in H. rewrite first_leaf in H. cbn [rbind] in H.
  apply rbind_ok in H. destruct H as (th & Eth & H). apply rbind_ok in H. destruct H as (d & _ & H). apply rbind_ok in H. destruct H as (tag & _ & H).
  apply rbind_ok in H. destruct H as (interim & _ & H). apply rbind_ok in H. destruct H as (psk & _ & H). apply rbind_ok in H. destruct H as (ini & _ & H). apply Ok_inj in H. subst g.
  constructor; unfold gr_value; cbn [gr_heap gr_tree gr_pending]; [|constructor].
  change (deref [NLeaf (kp_leafNode (kpp_public kpp))] [Some 0%nat]) with [Some (NLeaf (kp_leafNode (kpp_public kpp)))] in *.
  intros l [E|[]]. injection E as <-. pose proof (single_shaped (kp_leafNode (kpp_public kpp))) as Sh.
  rewrite (rootTreeHash_eq _ 0 _ (proj1 Sh)) in Eth. rewrite (treeHashLoop_leaf 0) in Eth by auto.
  apply rbind_ok in Eth. destruct Eth as (e & Eth & _). unfold putLeafNodeHashInput, shownLeaf in Eth. cbn [existsb] in Eth. rewrite shown_single in Eth.
  destruct (putLeafNode (kp_leafNode (kpp_public kpp))); try exact I; discriminate Eth.
Qed.
Lemma wf_leaves_safe t : Forall wf_optionalNode t -> leaves_safe t.
Proof. intros H l Hl. rewrite Forall_forall in H. apply H in Hl. apply leafNode_nc. exact Hl. Qed.
Lemma joined_inv w kpp now g : groupFromWelcome w kpp now = Ok g -> crash_inv g.
Proof.
  intros H. apply groupFromWelcome_inv in H. destruct H as (ref & s & Eref & Es & Epsks & H). apply groupFromSecrets_inv in H.
  destruct H as (psk & gi & raw & t & signer & epoch & init & interim & me & priv & Epsk & Egi & Eraw & Et & Esg & Esig & Etag & Ecs & Ev & Eep & Ein & Eint & Eme & -> & priv0 & Ep0 & Ep).
  destruct (load t) as [h pt] eqn:El. destruct (load_value t h pt El) as (V & P & L). cbn [fst snd].
  assert (Hne : t <> []). { intros ->. apply getLeaf_some in Esg. destruct (N.to_nat _); discriminate. }
  destruct (decoded_tree raw t Et Hne) as (_ & Hwf).
  constructor; unfold gr_value; cbn [gr_heap gr_tree gr_pending]; [|constructor]. rewrite V. now apply wf_leaves_safe.
Qed.
Lemma unmerged_inv g h : sane g -> same_but_unmerged (gr_value g) (gr_value (withHeap g h)) -> crash_inv g -> crash_inv (withHeap g h).
Proof.
  intros Sa S [I1 I2]. pose proof (sane_shape _ Sa) as W. constructor.
  - apply leaves_safe_at; [eapply same_but_unmerged_shaped; eauto|]. intros j l E. rewrite (same_leaf _ _ _ S) in E.
    eapply leaves_safe_at in E; eauto.
  - change (gr_pending (withHeap g h)) with (gr_pending g). eapply Forall_impl; [|exact I2]. intros pp [H1 H2]. split; auto.
    intros l E. rewrite (same_leaf _ _ _ S). eauto.
Qed.
Lemma apply_inv g ps ss h t : sane g -> crash_inv g -> applyH (gr_heap g) (gr_tree g) ps ss = Ok (h, t) -> crash_inv (withHeap g h).
Proof.
  intros Sa I Ha. apply unmerged_inv; auto. unfold gr_value, withHeap. cbn [gr_heap gr_tree].
  apply extends_value; [exact (proj1 (proj1 (sane_consistent _ Sa)))|]. eapply applyH_extends; eauto.
Qed.

(** The proposals of a commit are decoded ones. *)
Lemma commit_wf g li c ps : crash_inv g -> wf_commit c -> commits g li c ps -> Forall (fun p => wf_proposal (fst p)) ps.
Proof.
  intros [_ I2] [Hc _] H. unfold commits in H. induction H as [|por p l ps Hs _ IH]; constructor; inversion Hc; subst; auto.
  unfold stands_for in Hs. destruct por as [q|ref]; [now subst p|]. destruct Hs as (pp & Hf & ->). cbn [fst].
  rewrite Forall_forall in I2. destruct Hf as (l1 & l2 & Hf & _). apply I2. rewrite Hf. apply in_elt.
Qed.
Lemma new_leaves_wf ps : Forall (fun p => wf_proposal (fst p)) ps ->
  (forall s l, In (s, l) (updatesOf ps) -> wf_leafNode l) /\ (forall l, In l (additionsOf ps) -> wf_leafNode l).
Proof.
  intros H. rewrite Forall_forall in H. split.
  - intros s l Hin. apply in_flat_map in Hin. destruct Hin as ([p x] & Hp & Hin). apply H in Hp. cbn [fst snd] in *. destruct p; try easy. destruct Hin as [E|[]]. now injection E as _ <-.
  - intros l Hin. apply in_flat_map in Hin. destruct Hin as ([p x] & Hp & Hin). apply H in Hp. cbn [fst snd] in *. destruct p; try easy. destruct Hin as [<-|[]]. apply Hp.
Qed.
Lemma apply_safe t ps t' : well_shaped t -> leaves_safe t -> Forall (fun p => wf_proposal (fst p)) ps ->
  vapply t (map fst ps) (map snd ps) = Ok t' -> leaves_safe t'.
Proof.
  intros W S Hp V. apply leaves_safe_at; [eapply vapply_shape; eauto|]. intros j l E.
  destruct (new_leaves_wf ps Hp) as [N1 N2]. destruct (vapply_from t ps t' W V j l E) as [H|[H|H]].
  - eapply leaves_safe_at in H; eauto.
  - apply leafNode_nc. eauto.
  - apply leafNode_nc. eauto.
Qed.
Lemma merged_safe cs k t t' li up : shaped k t -> shaped k t' -> merged cs k t t' li up -> wf_leafNode (up_leafNode up) -> leaves_safe t -> leaves_safe t'.
Proof.
  intros Sh Sh' M Hw S. apply leaves_safe_at; [right; eauto|]. intros j l E. destruct (merged_leaf _ _ _ _ _ _ Sh Sh' M) as [E1 E2].
  destruct (N.eq_dec j li) as [->|Hne].
  - rewrite E1 in E. injection E as <-. now apply leafNode_nc.
  - rewrite E2 in E by assumption. eapply leaves_safe_at in E; eauto. right; eauto.
Qed.

Lemma commit_inv g ac now g' r : sane g -> crash_inv g -> wf_framedContent (ac_content ac) -> processCommit g ac [] [] now = (g', r) -> crash_inv g'.
Proof.
  intros Sa I Hw H. destruct r as [[]|e|p|].
  2,3,4: unfold processCommit in H; destruct (fc_body (ac_content ac)) as [?|?|c]; try (assert (g' = g) as -> by congruence; exact I);
    destruct (checkCommit _ _ _) as [[ps ss]|?|?|]; try (assert (g' = g) as -> by congruence; exact I);
    destruct (applyH _ _ _ _) as [[h t]|?|?|] eqn:Ea; try (assert (g' = g) as -> by congruence; exact I);
    destruct (finishCommit _ _ _ _ _ _ _ _) as [g1|?|?|] eqn:Ef; try (assert (g' = g) as -> by congruence; exact I); try discriminate.
  2: { assert (g' = withHeap g h) as -> by congruence. eapply apply_inv; eauto. }
  apply processCommit_ok in H. destruct H as (c & proposals & senders & h & t & Hb & Hck & Ha & Hf).
  destruct (checkCommit_pairs _ _ _ _ _ Hck) as (ps & Hc & -> & -> & Hn).
  pose proof (proj1 (sane_consistent _ Sa)) as Pr. destruct (applyH_value_ok _ _ _ _ _ _ Pr Ha) as [V P1]. fold (gr_value g) in V.
  pose proof (vapply_shape _ _ _ _ (sane_shape _ Sa) V) as W1.
  destruct Hw as (_ & _ & Hw). rewrite Hb in Hw. cbn [wf_body] in Hw. pose proof (commit_wf _ _ _ _ I Hw Hc) as Hps.
  pose proof (apply_safe _ _ _ (sane_shape _ Sa) (ci_leaves _ I) Hps V) as S1.
  destruct (finishCommit_ok _ _ _ _ _ _ _ _ _ Hf) as (priv & nh & h1 & t1 & th & cs & priv1 & ctx & it & psk & es & ini & Ec & _ & Hp & _ & ->).
  constructor; unfold gr_value; cbn [gr_heap gr_tree gr_pending]; [|constructor].
  destruct Hw as [_ Hw]. destruct (c_path c) as [up|].
  - apply processPath_all in Hp. destruct Hp as (Hm & _ & Hd). destruct W1 as [W1|(k & Sh)].
    { exfalso. unfold mergeUpdatePathH in Hm. apply rbind_ok in Hm. destruct Hm as (v & Hm & _). rewrite W1 in Hm. now apply merge_nil in Hm. }
    destruct (mergeH_shaped _ _ _ _ _ _ _ _ P1 Sh Hm) as [Sh' M]. apply (merged_safe _ _ _ _ _ _ Sh Sh' M); [apply Hw|exact S1].
  - destruct Hp as (-> & -> & _). exact S1.
Qed.
Lemma message_inv g raw now g' r : sane g -> crash_inv g -> unmarshalAndProcessMessage g raw now = (g', r) -> crash_inv g'.
Proof.
  intros Sa I H. apply acted_on_or in H. destruct H as [[-> _]|(ac & Hca & Hau & _ & H)]; [exact I|].
  pose proof (proj1 (carries_wf _ _ _ Hca)) as Hw. destruct (fc_body (ac_content ac)) as [d|p|c] eqn:Eb.
  - destruct H as (-> & _). exact I.
  - unfold noData, processProposal in H. rewrite Eb in H. destruct (generateProposalRef _ _) as [ref|?|?|]; cbn [fst snd rmap] in H; try (assert (g' = g) as -> by congruence; exact I).
    apply pair_equal_spec in H. destruct H as [-> _]. destruct I as [I1 I2]. constructor; [exact I1|]. cbn [withPending gr_pending].
    apply Forall_app. split; [exact I2|]. constructor; [|constructor]. cbn [pp_proposal pp_sender]. destruct Hw as (_ & _ & Hw). rewrite Eb in Hw. split; [exact Hw|].
    intros l _. destruct Hau as (_ & _ & li & leaf & Es & El & _). rewrite Es. cbn [sender_leafIndex].
    unfold leaf_at, gr_value in *. cbn [withPending gr_heap gr_tree]. change ((2 * li) mod 2 ^ 32) with (nodeIndexOf li) in El. rewrite nodeIndexOf_designated in El. rewrite El. discriminate.
  - unfold noData in H. destruct (processCommit g ac [] [] now) as [g1 r1] eqn:E. cbn [fst snd] in H. apply pair_equal_spec in H. destruct H as [-> _]. eapply commit_inv; eauto.
Qed.
Theorem obtained_inv g : obtained g -> crash_inv g.
Proof.
  induction 1 as [? ? ? ? H|? ? ? ? H|g kps rs ri rh rg g' r Ho IH H|g raw now g' r Ho IH H].
  - eapply created_inv; eauto.
  - eapply joined_inv; eauto.
  - unfold createWelcome in H. destruct kps as [|k0 kps0]; [apply pair_equal_spec in H; now destruct H as [<- _]|].
    destruct (applyH _ _ _ _) as [[h t]|?|?|] eqn:Ea; try (apply pair_equal_spec in H; now destruct H as [<- _]).
    assert (E : g' = withHeap g h) by congruence. subst g'. eapply apply_inv; eauto. now apply obtained_sane.
  - eapply message_inv; eauto. now apply obtained_sane.
Qed.

(** ** Processing messages *)
Lemma nc_foldM {S A} (f : S -> A -> res S) l : (forall s a, In a l -> no_crash (f s a)) -> forall s, no_crash (foldM f s l).
Proof. intros H s. apply (no_crash_foldM f (fun _ => True)); auto. Qed.
Lemma nc_verifyProposalList ps li : Forall (fun p => wf_proposal (fst p)) ps -> no_crash (verifyProposalList (map fst ps) (map snd ps) li).
Proof.
  intros Hp. unfold verifyProposalList. rewrite !lenN_map, N.eqb_refl. cbn [negb]. nc; [|exact I]. apply nc_foldM.
  intros s [p x] Hin. cbn [verifyProposal]. destruct p; repeat ncg; try exact I.
  nc; [|ncg; exact I]. apply pskID_nc.
Qed.
Section Message.
Context (OK : crypto_ok C) (g : group) (d : suiteDesc) (Hd : cipherSuiteDescriptions (gc_cipherSuite (gr_context g)) = Some d) (Hseed : derives_keys d) (Ho : obtained g).
Let cs := gc_cipherSuite (gr_context g).

Lemma nc_checkCommit li c ps : (forall k s, In (PAdd k, s) ps -> usable_key d (ln_signatureKey (kp_leafNode k))) -> wf_commit c -> commits g li c ps -> no_crash (checkCommit g li c).
Proof.
  intros Hv Hw Hc. pose proof (commit_wf _ _ _ _ (obtained_inv _ Ho) Hw Hc) as Hps. unfold checkCommit.
  rewrite (proj2 (resolveProposals_spec _ _ _ _) Hc). cbn [rbind]. nc; [now apply nc_verifyProposalList|].
  nc; [|ncg; exact I]. apply nc_foldM. intros s p Hin. destruct p; try exact I.
  apply in_map_iff in Hin. destruct Hin as ([q x] & E & Hin). cbn in E. subst q. apply (nc_keyPackageVerify cs d Hd); [eauto| |reflexivity]. rewrite Forall_forall in Hps. apply (Hps _ Hin).
Qed.

Lemma Forall2_in_r {A B} (R : A -> B -> Prop) l l' : Forall2 R l l' -> forall y, In y l' -> exists x, In x l /\ R x y.
Proof. induction 1 as [|x y l l' HR _ IH]; [easy|]. intros z [<-|Hz]; [exists x; cbn; auto|]. destruct (IH z Hz) as (w & H1 & H2). exists w. cbn. auto. Qed.
Lemma removals_NoDup l : NoDup (changedLeaves l) -> (forall r s, In (PRemove r, s) l -> r < 2 ^ 31) -> NoDup (removalsOf l).
Proof.
  induction l as [|[p x] l IH]; intros Hn Hr; [constructor|].
  unfold removalsOf. cbn [flat_map fst snd]. fold (removalsOf l).
  assert (IHl : NoDup (removalsOf l)).
  { apply IH; [|intros; eapply Hr; right; eauto]. unfold changedLeaves in Hn. cbn [flat_map fst snd] in Hn. fold (changedLeaves l) in Hn. destruct p; auto; now inversion Hn. }
  destruct p; try exact IHl. cbn [app]. constructor; [|exact IHl]. intros Hin. apply in_flat_map in Hin. destruct Hin as ([q y] & Hq & Hin). cbn [fst] in Hin.
  destruct q; try easy. destruct Hin as [E|[]]. rewrite !designated_small in E by (eapply Hr; cbn; eauto). subst.
  unfold changedLeaves in Hn. cbn [flat_map fst snd] in Hn. fold (changedLeaves l) in Hn. inversion Hn as [|a b Hni _]; subst. apply Hni.
  apply in_flat_map. eexists. split; [exact Hq|]. now left.
Qed.
Lemma member_small r : leaf_at (gr_value g) r <> None -> r < 2 ^ 31.
Proof.
  intros H. destruct (sane_shape _ (obtained_sane _ Ho)) as [E|(k & Sh)]; [rewrite E in H; now rewrite no_member_nil in H|].
  pose proof (member_in_array k _ _ Sh H). pose proof (leaf_count_31 k (proj1 (shaped_full _ _ Sh))). lia.
Qed.
Lemma wf_pskIds ps : Forall (fun p : proposal * N => wf_proposal (fst p)) ps -> Forall wf_pskID (pskIds ps).
Proof.
  rewrite !Forall_forall. intros H id Hin. apply in_flat_map in Hin. destruct Hin as ([p x] & Hp & Hin). apply H in Hp. cbn [fst] in *. destruct p; try easy. destruct Hin as [<-|[]]. exact Hp.
Qed.

Lemma apply_runs li c ps : wf_commit c -> commits g li c ps -> checkCommit g li c = Ok (map fst ps, map snd ps) ->
  (forall r s, In (PRemove r, s) ps -> leaf_at (gr_value g) r <> None) ->
  (exists n, at_most (leaf_at (gr_value g)) n /\ n + lenN (additionsOf ps) <= 2 ^ 31) ->
  (exists h t, applyH (gr_heap g) (gr_tree g) (map fst ps) (map snd ps) = Ok (h, t)) /\ ~ In li (changedLeaves ps).
Proof.
  intros Hw Hc Hck Hr (n & Hn & Hroom). pose proof (commit_wf _ _ _ _ (obtained_inv _ Ho) Hw Hc) as Hps.
  apply checkCommit_ok in Hck. destruct Hck as (ps' & Hc' & E1 & E2 & Hvl & _). pose proof (proj2 (resolveProposals_spec _ _ _ _) Hc) as R1. pose proof (proj2 (resolveProposals_spec _ _ _ _) Hc') as R2.
  rewrite R1 in R2. apply Ok_inj in R2. subst ps'.
  apply (verifyProposalList_ok _ _ (wf_pskIds _ Hps)) in Hvl. destruct Hvl as [(_ & Hch & Hli & _) _]. split; [|exact Hli].
  pose proof (obtained_sane _ Ho) as Sa. pose proof (proj1 (sane_consistent _ Sa)) as Pr.
  destruct (vapply_succeeds (gr_value g) ps n (sane_shape _ Sa)) as (v & V); auto.
  - apply removals_NoDup; auto. intros. apply member_small. eauto.
  - intros s m Hin. apply in_flat_map in Hin. destruct Hin as ([p x] & Hp & Hin). cbn [fst snd] in Hin. destruct p; try easy. destruct Hin as [E|[]]. injection E as <- <-.
    assert (Hx : x <> li) by (intros ->; apply Hli; apply in_flat_map; eexists; split; [exact Hp|now left]).
    unfold commits in Hc. destruct (Forall2_in_r _ _ _ Hc _ Hp) as (por & _ & Hs). destruct por as [q|ref]; [injection Hs as _ E; congruence|].
    destruct Hs as (pp & (l1 & l2 & Hf & _) & Es). injection Es as Ep ->. pose proof (ci_pending _ (obtained_inv _ Ho)) as Hpend. rewrite Forall_forall in Hpend.
    destruct (Hpend pp) as [_ Hup]; [rewrite Hf; apply in_elt|]. eauto.
  - intros r Hin. apply in_flat_map in Hin. destruct Hin as ([p x] & Hp & Hin). cbn [fst snd] in Hin. destruct p; try easy. destruct Hin as [<-|[]].
    pose proof (Hr _ _ Hp) as Hm. rewrite designated_small by now apply member_small. exact Hm.
  - destruct (applyH_of_value _ _ _ _ _ Pr V) as (h & t & E & _). eauto.
Qed.

Lemma fills_keep M ls M' : fills M ls M' -> forall j, M j <> None -> M' j <> None.
Proof.
  induction 1 as [M M' H|M l r i M1 M' H1 H2 H3 H4 _ IH]; intros j Hj; [now rewrite H|]. apply IH.
  destruct (N.eq_dec j i) as [->|Hne]; [congruence|now rewrite H4].
Qed.
Lemma vapply_keeps t l t' li : well_shaped t -> vapply t (map fst l) (map snd l) = Ok t' ->
  leaf_at t li <> None -> ~ In li (removalsOf l) -> leaf_at t' li <> None.
Proof.
  intros W V Hl Hr. destruct (vapply_parts t l t' W V) as (t1 & t2 & E1 & W1 & W2 & E2 & E3 & _ & Hf). apply (fills_keep _ _ _ Hf).
  destruct (removes_members _ _ _ W1 E2) as [_ R]. rewrite R, flat_map_map. fold (removalsOf l).
  destruct (memN li (removalsOf l)) eqn:Em; [apply memN_In in Em; tauto|].
  clear - W E1 Hl. revert t W E1 Hl. induction l as [|[p x] l IH]; intros t W E1 Hl; cbn [foldM] in E1; [apply Ok_inj in E1; now subst|].
  apply rbind_ok in E1. destruct E1 as (t0 & E0 & E1). unfold updPair in E0. cbn [fst snd] in E0.
  destruct p; try (apply Ok_inj in E0; subst t0; eapply IH; eauto).
  destruct (update_members _ _ _ _ W E0) as (W0 & H1 & H2). eapply IH; [exact W0|exact E1|].
  destruct (N.eq_dec li (designated x)) as [->|Hne]; [congruence|now rewrite H2].
Qed.

Lemma nc_processPath li up h t priv now k : usable_key d (ln_signatureKey (up_leafNode up)) -> proper h t -> shaped k (deref h t) -> leaves_safe (deref h t) -> lists_below (deref h t) ->
  li < leaf_count k -> leaf_at (deref h t) li <> None -> wf_updatePath up -> length priv = length t ->
  no_crash (processPath g li up h t priv now).
Proof.
  intros Hv Pr Sh Hs Hb Hli Hl Hup Hp. unfold processPath. cbv zeta. fold cs. ncg.
  rewrite (getLeaf_at k) by assumption. cbn [rbind]. rewrite (treeKeys_ok k) by assumption. cbn [rbind].
  destruct (leaf_at (deref h t) li) as [sn|] eqn:El; [|congruence].
  nc. { unfold supportedCreds. rewrite (members_ok k) by assumption. exact I. }
  nc. { apply (nc_leafVerify cs d Hd); [exact Hv|apply Hup|reflexivity]. }
  ncg. assert (Ed : designated li = li) by (apply (designated_leaf k); [apply Sh|assumption]).
  assert (Hli' : designated li < leaf_count k) by now rewrite Ed.
  nc; [apply (nc_mergeH cs d k); auto|]. destruct a1 as [h1 t1]. destruct (mergeH_shaped _ _ _ _ _ _ _ _ Pr Sh H1) as [Sh' M].
  nc; [apply (nc_rootTreeHash k _ _ d); auto; apply (merged_safe _ _ _ _ _ _ Sh Sh' M); auto; apply Hup|].
  nc; [|destruct a2; exact I].
  eapply (nc_decryptPathSecrets OK cs d Hd Hseed k); [exact Sh|exact Sh'|exact M| | |].
  - exact (ms_index _ (obtained_state _ Ho)).
  - unfold lenN. rewrite Hp. f_equal. unfold deref. rewrite map_length. apply mergeH_length in H1. lia.
  - exact (merged_lists _ _ _ _ _ _ Sh M Hb).
Qed.

Lemma nc_finishCommit ac c li ps h t now : (forall up, c_path c = Some up -> usable_key d (ln_signatureKey (up_leafNode up))) -> fc_body (ac_content ac) = BCommit c -> fc_sender (ac_content ac) = SMember li -> wf_framedContent (ac_content ac) ->
  commits g li c ps -> leaf_at (gr_value g) li <> None -> ~ In li (changedLeaves ps) ->
  (forall r s, In (PRemove r, s) ps -> leaf_at (gr_value g) r <> None) ->
  applyH (gr_heap g) (gr_tree g) (map fst ps) (map snd ps) = Ok (h, t) -> no_crash (finishCommit g ac c h t [] [] now).
Proof.
  intros Hv Hb Hs Hw Hc Hl Hch Hr Ha. pose proof (obtained_sane _ Ho) as Sa. destruct (sane_consistent _ Sa) as [Pr Hpl].
  destruct (applyH_value_ok _ _ _ _ _ _ Pr Ha) as [V P1]. fold (gr_value g) in V.
  destruct (apply_lists _ _ _ _ _ _ Pr (sane_shape _ Sa) (ms_lists _ (obtained_state _ Ho)) Ha) as [_ L1].
  pose proof (vapply_shape _ _ _ _ (sane_shape _ Sa) V) as W1.
  assert (Hwc : wf_commit c) by (destruct Hw as (_ & _ & Hw); rewrite Hb in Hw; exact Hw).
  pose proof (commit_wf _ _ _ _ (obtained_inv _ Ho) Hwc Hc) as Hps.
  pose proof (apply_safe _ _ _ (sane_shape _ Sa) (ci_leaves _ (obtained_inv _ Ho)) Hps V) as S1.
  assert (Hl1 : leaf_at (deref h t) li <> None).
  { apply (vapply_keeps _ _ _ _ (sane_shape _ Sa) V Hl). intros Hin. apply Hch. apply in_flat_map in Hin. destruct Hin as ([p x] & Hp & Hin). cbn [fst] in Hin. destruct p; try easy.
    destruct Hin as [E|[]]. rewrite designated_small in E by (apply member_small; eauto). subst. apply in_flat_map. eexists. split; [exact Hp|now left]. }
  destruct W1 as [W1|(k & Sh)]; [rewrite W1 in Hl1; now rewrite no_member_nil in Hl1|].
  unfold finishCommit. cbv zeta. fold cs. destruct (carryPriv_ok (length (gr_tree g)) (length t) (gr_privTree g) Hpl) as (priv & -> & Hpl'). cbn [rbind].
  nc; [eapply nc_extractSize; eauto|]. nc.
  - destruct (c_path c) as [up|] eqn:Ep.
    + rewrite Hs. cbn [sender_leafIndex]. apply (nc_processPath _ _ _ _ _ _ k); auto; [now apply (member_in_array k) in Hl1|]. destruct Hwc as [_ Hwc]. now rewrite Ep in Hwc.
    + nc; [apply (nc_rootTreeHash k _ _ d); auto|exact I].
  - destruct a0 as [[[[h1 t1] th] cs1] priv1]. nc; [apply (nc_nextEpoch cs d Hd); auto|]. destruct a0 as [[[[? ?] ?] ?] ?]. exact I.
Qed.

Lemma nc_processCommit ac c li now : fc_body (ac_content ac) = BCommit c -> fc_sender (ac_content ac) = SMember li -> wf_framedContent (ac_content ac) ->
  leaf_at (gr_value g) li <> None ->
  (forall ps, commits g li c ps -> (forall r s, In (PRemove r, s) ps -> leaf_at (gr_value g) r <> None) /\
    (exists n, at_most (leaf_at (gr_value g)) n /\ n + lenN (additionsOf ps) <= 2 ^ 31)) ->
  (forall ps, commits g li c ps -> (forall k s, In (PAdd k, s) ps -> usable_key d (ln_signatureKey (kp_leafNode k))) /\
    (forall up, c_path c = Some up -> usable_key d (ln_signatureKey (up_leafNode up)))) ->
  no_crash (snd (processCommit g ac [] [] now)).
Proof.
  intros Hb Hs Hw Hl Hps Hv. unfold processCommit. rewrite Hb, Hs. cbn [sender_leafIndex].
  assert (Hwc : wf_commit c) by (destruct Hw as (_ & _ & Hw'); rewrite Hb in Hw'; exact Hw').
  destruct (checkCommit g li c) as [[proposals senders]|e|e|] eqn:Ec; [|exact I| |].
  2,3: exfalso; assert (N : no_crash (checkCommit g li c)); [|rewrite Ec in N; exact N];
    unfold checkCommit in Ec |- *; pose proof (resolveProposals_nc (c_proposals c) li (gr_pending g)) as N; destruct (resolveProposals _ _ _) as [ps|?|?|] eqn:Er; try exact N; try exact I;
    rewrite <- Er; change (no_crash (checkCommit g li c)); apply resolveProposals_spec in Er; apply (nc_checkCommit li c ps); [apply Hv; exact Er|exact Hwc|exact Er].
  destruct (checkCommit_pairs _ _ _ _ _ Ec) as (ps & Hc & -> & -> & _). destruct (Hps ps Hc) as [Hr Hroom].
  destruct (apply_runs li c ps Hwc Hc Ec Hr Hroom) as [(h & t & Ea) Hch]. rewrite Ea.
  pose proof (nc_finishCommit ac c li ps h t now (proj2 (Hv ps Hc)) Hb Hs Hw Hc Hl Hch Hr Ea) as N. destruct (finishCommit _ _ _ _ _ _ _ _); exact N || exact I.
Qed.

Lemma nc_xorGuard : forall guard nonce, (length guard <= length nonce)%nat ->
  exists r, xorGuard nonce guard = Ok r /\ length r = length nonce.
Proof.
  induction guard as [|x guard IH]; intros nonce H; [exists nonce; destruct nonce; auto|]. destruct nonce as [|n nonce]; [cbn in H; lia|].
  cbn [xorGuard]. destruct (IH nonce) as (r & -> & E); [cbn in H; lia|]. cbn [rbind]. eexists. split; [reflexivity|]. cbn [length]. lia.
Qed.
Lemma nc_treeSecret s l gen n : n <= 255 * 32 -> no_crash (deriveTreeSecret cs s l gen n).
Proof. intros Hn. unfold deriveTreeSecret. nc; [exact I|]. eapply nc_expand; eauto. Qed.
Lemma nc_ratchetForward : forall n s, no_crash (ratchetForward cs s n).
Proof.
  induction n as [|n IH]; intros s; cbn [ratchetForward]; [exact I|]. nc; [|apply IH]. unfold deriveNext.
  nc; [eapply nc_extractSize; eauto|]. nc; [apply nc_treeSecret; eapply extractSize_le; eauto|exact I].
Qed.
Lemma lenN_value : lenN (gr_value g) = lenN (gr_tree g).
Proof. unfold gr_value, deref, lenN. now rewrite map_length. Qed.
Lemma tree_shape li : 2 * li < lenN (gr_tree g) -> exists k, shaped k (gr_value g) /\ li < leaf_count k.
Proof.
  intros Hli. rewrite <- lenN_value in Hli. destruct (sane_shape _ (obtained_sane _ Ho)) as [E|(k & Sh)].
  { rewrite E in Hli. unfold lenN in Hli. cbn [length] in Hli. exfalso. lia. }
  exists k. split; [exact Sh|]. apply (leaf_in_array k (gr_value g)); [now apply shaped_full|assumption].
Qed.
Lemma nc_messageSecret li ct n : 2 * li < lenN (gr_tree g) -> In ct [1; 2; 3] -> no_crash (messageSecret g li ct n).
Proof.
  intros Hli Hct. destruct (tree_shape _ Hli) as (k & Sh & Hlk). pose proof (shaped_full _ _ Sh) as [Fk Fl]. rewrite lenN_value in Fl.
  unfold messageSecret. cbv zeta. fold cs. nc; [eapply nc_deriveSecret; eauto|].
  rewrite (numLeaves_tree (gr_tree g) k Fk Fl). destruct (secret_tree_secrets cs d k Hd Fk a) as (st & -> & _ & Hst). cbn [rbind].
  nc. { unfold ratchetLabelFromContentType. destruct Hct as [<-|[<-|[<-|[]]]]; exact I. }
  nc; [|apply nc_ratchetForward]. unfold deriveRatchetRoot. nc; [eapply nc_extractSize; eauto|].
  rewrite (nodeIndexOf_leaf k) by assumption. unfold getSecret. rewrite <- (leafPath_number k) by assumption.
  rewrite (proj2 (getN_ok _ _ _) (Hst _ (leafPath_in k li))). cbn [rbind]. nc; [|exact I]. eapply nc_expand; eauto. eapply extractSize_le; eauto.
Qed.
Lemma nc_decryptContent m s rg : In (privm_contentType m) [1; 2; 3] -> lenN rg = 4 -> no_crash (decryptContent cs m s rg).
Proof.
  intros Hct Hrg. unfold decryptContent.
  assert (Hkn : no_crash (derivePrivateMessageKeyAndNonce cs s rg) /\ forall key nonce, derivePrivateMessageKeyAndNonce cs s rg = Ok (key, nonce) -> lenN nonce = 12).
  { unfold derivePrivateMessageKeyAndNonce, deriveKey, deriveNonce. 
    assert (N1 : no_crash (let! nk := suiteKeySize cs in deriveTreeSecret cs (rs_secret s) (str "key") (rs_generation s) nk)).
    { nc; [eapply nc_suiteKeySize; eauto|]. apply nc_treeSecret. now apply (keySize_le cs d Hd). }
    assert (N2 : no_crash (let! nn := suiteNonceSize cs in deriveTreeSecret cs (rs_secret s) (str "nonce") (rs_generation s) nn)).
    { nc; [eapply nc_suiteNonceSize; eauto|]. apply nc_treeSecret. now apply (nonceSize_le cs d Hd). }
    destruct (let! nk := suiteKeySize cs in _) as [key|?|?|]; cbn [rbind] in *; try (split; [assumption|discriminate]).
    destruct (let! nn := suiteNonceSize cs in _) as [nonce|?|?|] eqn:En; cbn [rbind] in *; try (split; [assumption|discriminate]).
    assert (Hn : lenN nonce = 12).
    { apply rbind_ok in En. destruct En as (nn & E1 & E2). unfold deriveTreeSecret in E2. apply rbind_ok in E2. destruct E2 as (? & _ & E2).
      apply (expand_len cs) in E2; auto. destruct (nonceSize_le cs d Hd _ E1). lia. }
    destruct (nc_xorGuard rg nonce) as (r & -> & El); [unfold lenN in *; lia|]. cbn [rbind]. split; [exact I|].
    intros k' n' [= <- <-]. unfold lenN in *. lia. }
  destruct Hkn as [N Hn]. nc; [exact N|]. destruct a as [key nonce]. specialize (Hn _ _ H).
  nc. { unfold putPrivateContentAAD. repeat (apply wapp_no_crash; [first [exact I|apply writeOpaqueVec_no_crash]|]). apply writeOpaqueVec_no_crash. }
  nc; [eapply nc_aeadOpen; eauto|]. pose proof (privateMessageContent_SAFE _ Hct a0) as Sf. destruct (getPrivateMessageContent _ a0) as [[x|?|?|] rest]; try easy. cbn [rbind]. ncg. exact I.
Qed.

Lemma nc_getLeaf li : 2 * li < lenN (gr_tree g) -> getLeaf (gr_value g) li = Ok (leaf_at (gr_value g) li).
Proof.
  intros Hli. destruct (tree_shape _ Hli) as (k & Sh & Hlk). now apply (getLeaf_at k).
Qed.

Lemma nc_processContent ac li now : wf_framedContent (ac_content ac) -> fc_sender (ac_content ac) = SMember li -> leaf_at (gr_value g) li <> None ->
  (forall c ps, fc_body (ac_content ac) = BCommit c -> commits g li c ps ->
    (forall r s, In (PRemove r, s) ps -> leaf_at (gr_value g) r <> None) /\
    (exists n, at_most (leaf_at (gr_value g)) n /\ n + lenN (additionsOf ps) <= 2 ^ 31)) ->
  (forall c ps, fc_body (ac_content ac) = BCommit c -> commits g li c ps -> (forall k s, In (PAdd k, s) ps -> usable_key d (ln_signatureKey (kp_leafNode k))) /\
    (forall up, c_path c = Some up -> usable_key d (ln_signatureKey (up_leafNode up)))) ->
  match fc_body (ac_content ac) with
  | BProposal _ => no_crash (snd (processProposal g ac))
  | BCommit _ => no_crash (snd (processCommit g ac [] [] now))
  | BApplication _ => True
  end.
Proof.
  intros Hw Hs Hl Hc Hv. destruct (fc_body (ac_content ac)) as [data|p|c] eqn:Eb; [exact I| |].
  - unfold processProposal. rewrite Eb. assert (N : no_crash (generateProposalRef (gc_cipherSuite (gr_context g)) ac)).
    { unfold generateProposalRef. rewrite Eb. nc; [|eapply nc_refHash; eauto]. unfold putAuthenticatedContent. wsafe. }
    destruct (generateProposalRef _ _); exact N || exact I.
  - eapply nc_processCommit; eauto.
Qed.

Lemma nc_noData r : no_crash (snd r) -> no_crash (snd (noData r)).
Proof. destruct r as [g' [?|?|?|]]; auto. Qed.

Theorem message_no_crash raw now : keys_usable d g raw -> sender_in_tree g raw -> commit_fits g raw -> no_crash (snd (unmarshalAndProcessMessage g raw now)).
Proof.
  intros [Hvs Hvc] Hin Hfit. unfold unmarshalAndProcessMessage.
  pose proof (unmarshal_SAFE getMlsMessage raw mlsMessage_SAFE) as N. destruct (unmarshal getMlsMessage raw) as [m|?|?|] eqn:Em; try exact N.
  pose proof (unmarshal_mls_wf _ _ Em) as Hw. destruct m as [m|m|w|gi|k]; try exact I.
  - apply nc_noData. unfold processPublicMessage.
    assert (Nv : no_crash (verifyPublicMessage g m)).
    { unfold verifyPublicMessage. cbv zeta. ncg. ncg. destruct (fc_sender (pubm_content m)) as [li| | |] eqn:Es; try exact I.
      rewrite nc_getLeaf by (apply Hin; econstructor; eauto). cbn [rbind]. destruct (leaf_at (gr_value g) li) as [sn|] eqn:Esn; [|exact I].
      nc; [apply (nc_authSignature _ d Hd); [apply (Hvs li); [econstructor 1; eauto|exact Esn]|apply Hw|reflexivity]|]. ncg. nc; [eapply nc_deriveSecret; eauto|]. nc; [|ncg; exact I].
      unfold verifyMembershipTag. destruct (negb _); [exact I|]. apply nc_falseOnPutErr; [apply authenticatedContentTBM_nc; apply Hw|]. intros. eapply nc_verifyMAC; eauto. }
    destruct (verifyPublicMessage g m) as [ac|?|?|] eqn:Ev; try exact Nv. apply verifyPublicMessage_ok in Ev. destruct Ev as (Eac & Hau & _).
    assert (Hca : carries g raw ac) by (rewrite Eac; constructor; assumption). destruct Hau as (_ & _ & li & leaf & Es & El & _).
    assert (Hli : names_sender g raw li). { rewrite Eac in Es. econstructor 1; eauto. }
    pose proof (nc_processContent ac li now (proj1 (carries_wf _ _ _ Hca)) Es) as Nc. destruct (fc_body (ac_content ac)) eqn:Eb; [exact I| |]; apply Nc.
    all: try (intros c0 ps0 Ec; apply (Hfit ac); [assumption|congruence|assumption]).
    all: try (intros c0 ps0 Ec Hc0; apply (Hvc ac c0 li ps0); [assumption|congruence|assumption|assumption]).
    all: intros E0; change ((2 * li) mod 2 ^ 32) with (nodeIndexOf li) in El; pose proof (proj2 (getLeaf_some _ _ _) El) as El'; rewrite nc_getLeaf in El' by auto; rewrite E0 in El'; discriminate.
  - unfold processPrivateMessage.
    assert (Nv : no_crash (openPrivateMessage g m)).
    { unfold openPrivateMessage. cbv zeta. ncg. ncg. nc; [eapply nc_deriveSecret; eauto|]. nc; [eapply nc_decryptSenderData; eauto|].
      assert (Hli : 2 * sd_leafIndex a0 < lenN (gr_tree g)) by (apply Hin; econstructor 2; eauto).
      assert (Hsd : lenN (sd_reuseGuard a0) = 4).
      { unfold decryptSenderData in H0. rinv. apply unmarshal_ok in H0. apply senderData_CANT in H0. apply H0. }
      nc; [apply nc_messageSecret; auto; apply Hw|]. nc; [apply nc_decryptContent; auto; apply Hw|]. rewrite nc_getLeaf by assumption. cbn [rbind].
      destruct (leaf_at _ _) as [sn|] eqn:Esn; [|exact I]. nc; [|ncg; exact I]. apply (nc_authSignature _ d Hd); [apply (Hvs (sd_leafIndex a0)); [econstructor 2; eauto|exact Esn]| |reflexivity].
      apply (fun H => proj1 (carries_wf g raw _ H)). eapply (carries_private g raw m a a0 a1 a2); eauto. }
    destruct (openPrivateMessage g m) as [ac|?|?|] eqn:Ev; try exact Nv. apply (openPrivateMessage_ok g m ac raw Em) in Ev. destruct Ev as (Hca & Hau).
    destruct Hau as (_ & _ & li & leaf & Es & El & _).
    assert (Hli : names_sender g raw li). { destruct Hca as [m' E'|m' sds sd secret pc E' E1 E2 E3 E4]; [congruence|]. cbn [ac_content fc_sender] in Es. injection Es as <-. econstructor 2; eauto. }
    pose proof (nc_processContent ac li now (proj1 (carries_wf _ _ _ Hca)) Es) as Nc. destruct (fc_body (ac_content ac)) eqn:Eb; [exact I| |]; apply nc_noData, Nc.
    all: try (intros c0 ps0 Ec; apply (Hfit ac); [assumption|congruence|assumption]).
    all: try (intros c0 ps0 Ec Hc0; apply (Hvc ac c0 li ps0); [assumption|congruence|assumption|assumption]).
    all: intros E0; change ((2 * li) mod 2 ^ 32) with (nodeIndexOf li) in El; pose proof (proj2 (getLeaf_some _ _ _) El) as El'; rewrite nc_getLeaf in El' by auto; rewrite E0 in El'; discriminate.
Qed.
End Message.

Theorem supported_no_crash g d raw now : crypto_ok C -> supported (gc_cipherSuite (gr_context g)) = true ->
  cipherSuiteDescriptions (gc_cipherSuite (gr_context g)) = Some d -> obtained g ->
  keys_usable d g raw -> sender_in_tree g raw -> commit_fits g raw -> no_crash (snd (unmarshalAndProcessMessage g raw now)).
Proof.
  intros OK Hs Hd Ho. apply (message_no_crash OK g d Hd); [|exact Ho]. unfold supported in Hs. rewrite Hd in Hs. now apply N.eqb_eq in Hs.
Qed.
End WithCrypto.
