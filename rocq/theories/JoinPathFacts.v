(** The private keys that a joiner derives from a path secret. *)
From Verif Require Export PathFacts JoinFacts ObtainedFacts.

Section WithCrypto.
Context {C : crypto}.

Lemma loop_step f cs t priv s x : processPathSecretLoop f cs t priv s x =
  match parent (numLeaves t) x with
  | None => Ok priv
  | Some x' =>
    let! s' := deriveSecret cs s (str "path") in
    let! o := getN t x' in
    match o with
    | None => Panic "nil pointer dereference"
    | Some n =>
      let! key := nodePrivFromPathSecret cs s' (node_encryptionKey n) in
      let! priv' := setN priv x' (Some key) in
      match f with O => Hang | S f' => processPathSecretLoop f' cs t priv' s x' end
    end
  end.
Proof. destruct f; reflexivity. Qed.

Lemma loop_sound cs k t : crypto_ok C -> shaped k t -> forall a f priv s priv', in_tree k a -> full k priv ->
  processPathSecretLoop f cs t priv s (number k a) = Ok priv' ->
  full k priv' /\
  (forall y, above y a -> exists n key, at_path k t y = Some n /\ at_path k priv' y = Some key /\ opens cs key (node_encryptionKey n)) /\
  (forall y, in_tree k y -> ~ above y a -> at_path k priv' y = at_path k priv y).
Proof.
  intros OK Sh. pose proof (shaped_full _ _ Sh) as F. destruct F as [Hk Ht].
  induction a as [|b q IH] using rev_ind; intros f priv s priv' Ha Fp H; rewrite loop_step, (numLeaves_tree t k Hk Ht) in H.
  - rewrite (path_parent_root k Hk) in H. apply Ok_inj in H. subst priv'. splits; auto. intros y (c & r & E). destruct y; discriminate.
  - apply in_tree_snoc in Ha. rewrite (path_parent k Hk q b Ha) in H.
    apply rbind_ok in H. destruct H as (s' & Es & H). apply rbind_ok in H. destruct H as ([n|] & En & H); [|discriminate].
    apply rbind_ok in H. destruct H as (key & Ek & H). apply rbind_ok in H. destruct H as (priv1 & Ep & H).
    destruct f as [|f]; [discriminate|]. assert (Hq : in_tree k q) by (unfold in_tree; lia).
    apply (set_path_inv k) in Ep; auto. destruct Ep as (F1 & A1 & O1).
    destruct (IH f priv1 s priv' Hq F1 H) as (F' & K & O). splits; auto.
    + intros y Hy. destruct (path_eq_dec y q) as [->|Hne].
      * rewrite (at_path_getN k) in En by (auto; split; auto). apply Ok_inj in En. exists n, key. splits; auto.
        -- rewrite O by (auto; apply above_not_self). exact A1.
        -- apply nodePriv_iff in Ek. now apply (node_keys_opens cs s').
      * apply K. destruct Hy as (c & r & E). destruct r as [|d r _] using rev_ind.
        -- apply app_inj_tail in E. destruct E as [E _]. congruence.
        -- change (c :: r ++ [d]) with ((c :: r) ++ [d]) in E. rewrite app_assoc in E. apply app_inj_tail in E. destruct E as [E _]. exists c, r. exact E.
    + intros y Hy Hn. rewrite O, O1; auto.
      * intros ->. apply Hn. exists b, []. reflexivity.
      * intros Hab. apply Hn. eapply above_trans; [exact Hab|]. exists b, []. reflexivity.
Qed.

Lemma processPathSecret_sound cs k t priv s a priv' : crypto_ok C -> shaped k t -> in_tree k a -> full k priv ->
  processPathSecret cs t priv s (number k a) = Ok priv' ->
  full k priv' /\
  (forall y, ancestor_or_self y a -> exists n key, at_path k t y = Some n /\ at_path k priv' y = Some key /\ opens cs key (node_encryptionKey n)) /\
  (forall y, in_tree k y -> ~ ancestor_or_self y a -> at_path k priv' y = at_path k priv y).
Proof.
  intros OK Sh Ha Fp H. apply rbind_ok in H. destruct H as ([n|] & En & H); [|discriminate].
  apply rbind_ok in H. destruct H as (key & Ek & H). apply rbind_ok in H. destruct H as (priv1 & Ep & H).
  apply (set_path_inv k) in Ep; auto. destruct Ep as (F1 & A1 & O1).
  destruct (loop_sound cs k t OK Sh a _ priv1 s priv' Ha F1 H) as (F' & K & O).
  rewrite (at_path_getN k) in En by (auto; apply Sh). apply Ok_inj in En. splits; auto.
  - intros y Hy. apply aos_above in Hy. destruct Hy as [->|Hy]; [|auto]. exists n, key. splits; auto.
    + rewrite O by (auto; apply above_not_self). exact A1.
    + apply nodePriv_iff in Ek. now apply (node_keys_opens cs s).
  - intros y Hy Hn. rewrite O, O1; auto; intros X; apply Hn; apply aos_above; auto.
Qed.

(** The common ancestors of two leaves *)
Lemma commonAncestor_leaves k li r : fits k -> li < leaf_count k -> r < leaf_count k ->
  exists a, in_tree k a /\ commonAncestor (2 * li) (2 * r) = number k a /\ ancestor_or_self a (leafPath k li) /\ ancestor_or_self a (leafPath k r) /\
    forall p, ancestor_or_self p (leafPath k li) -> ancestor_or_self p (leafPath k r) -> ancestor_or_self p a.
Proof.
  intros Hk H1 H2. destruct (commonAncestor_lowest k (leafPath k li) (leafPath k r) Hk (leafPath_in _ _) (leafPath_in _ _)) as (a & Ha & E & A1 & A2 & A3).
  rewrite !leafPath_number in E by assumption. exists a. auto.
Qed.

Theorem joiner_keys w kpp now g ref s : crypto_ok C -> groupFromWelcome w kpp now = Ok g ->
  keyPackageRef (kpp_public kpp) = Ok ref -> decryptGroupSecrets w ref (kpp_initKey kpp) = Ok s -> gs_pathSecret s <> None ->
  exists k gi, shaped k (gr_value g) /\ decryptGroupInfo w (gs_joinerSecret s) (gr_pskSecret g) = Ok gi /\
    forall p, ancestor_or_self p (leafPath k (gr_myLeafIndex g)) -> ancestor_or_self p (leafPath k (designated (gi_signer gi))) ->
      exists n key, at_path k (gr_value g) p = Some n /\ at_path k (gr_privTree g) p = Some key /\
                    opens (gc_cipherSuite (gr_context g)) key (node_encryptionKey n).
Proof.
  intros OK H Eref Es Hps. apply groupFromWelcome_inv in H. destruct H as (ref' & s' & Eref' & Es' & Epsks & H).
  rewrite Eref in Eref'. apply Ok_inj in Eref'. subst ref'. rewrite Es in Es'. apply Ok_inj in Es'. subst s'. apply groupFromSecrets_inv in H.
  destruct H as (psk & gi & raw & t & signer & epoch & init & interim & me & priv & Epsk & Egi & Eraw & Et & Esg & Esig & Etag & Ecs & Ev & Eep & Ein & Eint & Eme & -> & priv0 & Ep0 & Ep).
  destruct (load t) as [h pt] eqn:El. destruct (load_value t h pt El) as (V & P & L). cbn [fst snd].
  assert (Hne : t <> []). { intros ->. apply getLeaf_some in Esg. destruct (N.to_nat _); discriminate. }
  destruct (decoded_tree raw t Et Hne) as ((k & F) & _). pose proof (verifyIntegrity_shaped k t _ now F Ev) as Sh.
  exists k, gi. unfold gr_value. cbn [gr_heap gr_tree gr_pskSecret gr_myLeafIndex gr_privTree gr_context]. rewrite V. splits; auto.
  intros p P1 P2. destruct (gs_pathSecret s) as [ps|]; [|congruence].
  assert (Hme : me < leaf_count k).
  { apply findLeaf_some in Eme. destruct Eme as (l' & e & Hme & _). destruct F as [F1 F2]. now rewrite (numLeaves_tree t k F1 F2) in Hme. }
  assert (Hsg : designated (gi_signer gi) < leaf_count k).
  { apply getLeaf_some in Esg. rewrite nodeIndexOf_designated in Esg. apply (leaf_in_array k t); [assumption|].
    assert (N.to_nat (2 * designated (gi_signer gi)) < length t)%nat by (apply nth_error_Some; congruence). unfold lenN. lia. }
  rewrite (nodeIndexOf_leaf k me (proj1 F) Hme), nodeIndexOf_designated in Ep.
  destruct (commonAncestor_leaves k me (designated (gi_signer gi)) (proj1 F) Hme Hsg) as (a & Ha & Ea & A1 & A2 & A3). rewrite Ea in Ep.
  assert (Fp : full k priv0).
  { split; [apply F|]. apply setN_len in Ep0. rewrite Ep0. unfold lenN. rewrite repeat_length. apply F. }
  destruct (processPathSecret_sound _ k t priv0 ps a priv OK Sh Ha Fp Ep) as (_ & K & _). apply K. auto.
Qed.

(** With at most one ancestor above, the path secret gives all the keys. *)
Lemma processPathSecret_complete cs k t priv s a : shaped k t -> full k priv -> in_tree k a -> (length a <= 1)%nat ->
  keyed_from cs k t (a :: proper_ancestors a) s ->
  exists priv', processPathSecret cs t priv s (number k a) = Ok priv' /\ keys_from cs k t (a :: proper_ancestors a) s priv'.
Proof.
  intros Sh Fp Ha Hlen HK. apply keyed_cons in HK as ((n & key & En & Ek) & s' & Es & H). pose proof (shaped_full _ _ Sh) as F. destruct F as [Hk Ht].
  assert (E0 : forall r, processPathSecret cs t priv s (number k a) = r <->
    (let! priv' := setN priv (number k a) (Some key) in processPathSecretLoop 33 cs t priv' s (number k a)) = r).
  { intros r. unfold processPathSecret. rewrite (at_path_getN k) by (auto; apply Sh). rewrite En. cbn [rbind].
    rewrite (proj2 (nodePriv_iff cs s (node_encryptionKey n) key) Ek). cbn [rbind]. reflexivity. }
  destruct (set_path k priv a (Some key) Fp Ha) as (priv1 & E1 & F1 & A1 & O1).
  destruct a as [|b a].
  - exists priv1. split.
    + apply E0. rewrite E1. cbn [rbind]. rewrite loop_step, (numLeaves_tree t k Hk Ht), (path_parent_root k Hk). reflexivity.
    + apply keys_cons. split; [exists n, key; auto|]. exists s'. split; [assumption|exact I].
  - destruct a as [|? ?]; [|cbn in Hlen; lia]. cbn [proper_ancestors map app] in H |- *. apply keyed_cons in H as ((n0 & key0 & En0 & Ek0) & s2 & Es2 & _).
    assert (Hr : in_tree k []) by (unfold in_tree; cbn; lia).
    destruct (set_path k priv1 [] (Some key0) F1 Hr) as (priv2 & E2 & F2 & A2 & O2). exists priv2. split.
    + apply E0. rewrite E1. cbn [rbind]. rewrite loop_step, (numLeaves_tree t k Hk Ht).
      change [b] with ([] ++ [b]). rewrite (path_parent k Hk [] b) by (unfold in_tree in Ha; cbn in *; lia). rewrite Es. cbn [rbind].
      rewrite (at_path_getN k) by (auto; apply Sh). rewrite En0. cbn [rbind]. rewrite (proj2 (nodePriv_iff cs s' (node_encryptionKey n0) key0) Ek0). cbn [rbind].
      rewrite E2. cbn [rbind]. rewrite loop_step, (numLeaves_tree t k Hk Ht), (path_parent_root k Hk). reflexivity.
    + apply keys_cons. split; [exists n, key; splits; auto; rewrite O2 by (auto; discriminate); exact A1|]. exists s'. split; [assumption|].
      apply keys_cons. split; [exists n0, key0; auto|]. exists s2. split; [assumption|exact I].
Qed.

Lemma groupFromSecrets_path w kpp j p psks ro ks now g gi : groupFromSecrets w kpp (mkGroupSecrets j None psks) ro ks now = Ok g ->
  decryptGroupInfo w j (gr_pskSecret g) = Ok gi ->
  groupFromSecrets w kpp (mkGroupSecrets j (Some p) psks) ro ks now =
    let! priv := processPathSecret (gc_cipherSuite (gr_context g)) (gr_value g) (gr_privTree g) p
                   (commonAncestor (nodeIndexOf (gr_myLeafIndex g)) (nodeIndexOf (gi_signer gi))) in
    Ok (mkGroup (gr_heap g) (gr_tree g) (gr_context g) (gr_interimTranscriptHash g) (gr_pskSecret g) (gr_epochSecret g) (gr_initSecret g)
          (gr_myLeafIndex g) priv (gr_signaturePriv g) (gr_pending g)).
Proof.
  intros H Hgi. apply groupFromSecrets_inv in H.
  destruct H as (psk & gi' & raw & t & signer & epoch & init & interim & me & priv & Epsk & Egi & Eraw & Et & Esg & Esig & Etag & Ecs & Ev & Eep & Ein & Eint & Eme & -> & priv0 & Ep0 & Ep).
  cbn [gs_pathSecret gs_joinerSecret gs_psks gr_pskSecret] in *. rewrite Hgi in Egi. apply Ok_inj in Egi. subst gi'. apply Ok_inj in Ep. subst priv0.
  unfold groupFromSecrets. cbn [gs_pathSecret gs_joinerSecret gs_psks]. rewrite Epsk. cbn [rbind]. rewrite Hgi. cbn [rbind]. cbv zeta. rewrite Eraw, Et. cbn [rbind].
  rewrite Esg. cbn [rbind]. rewrite Esig. cbn [guard rbind]. rewrite Etag. cbn [guard rbind]. rewrite Ecs, N.eqb_refl. cbn [guard rbind].
  rewrite Ev. cbn [rbind]. rewrite Eep. cbn [rbind]. rewrite Ecs in Ein, Eint. rewrite Ein. cbn [rbind]. rewrite Eint. cbn [rbind]. rewrite Eme. cbn [rbind]. rewrite Ep0. cbn [rbind].
  destruct (load t) as [h pt] eqn:El. destruct (load_value t h pt El) as (V & _ & _). unfold gr_value.
  cbn [fst snd gr_heap gr_tree gr_context gr_interimTranscriptHash gr_pskSecret gr_epochSecret gr_initSecret gr_myLeafIndex gr_privTree gr_signaturePriv gr_pending].
  rewrite V, Ecs. reflexivity.
Qed.

Theorem joiner_path_secret w kpp j p psks ro ks now g0 gi k a b s1 s2 :
  groupFromSecrets w kpp (mkGroupSecrets j None psks) ro ks now = Ok g0 ->
  decryptGroupInfo w j (gr_pskSecret g0) = Ok gi -> shaped k (gr_value g0) -> gr_myLeafIndex g0 < leaf_count k -> gi_signer gi < leaf_count k ->
  leafPath k (gr_myLeafIndex g0) = a ++ b :: s1 -> leafPath k (gi_signer gi) = a ++ negb b :: s2 -> (length a <= 1)%nat ->
  keyed_from (gc_cipherSuite (gr_context g0)) k (gr_value g0) (a :: proper_ancestors a) p ->
  exists g, groupFromSecrets w kpp (mkGroupSecrets j (Some p) psks) ro ks now = Ok g /\
    gr_value g = gr_value g0 /\ keys_from (gc_cipherSuite (gr_context g0)) k (gr_value g0) (a :: proper_ancestors a) p (gr_privTree g).
Proof.
  intros H0 Hgi Sh Hme Hsg E1 E2 Hlen HK. rewrite (groupFromSecrets_path _ _ _ _ _ _ _ _ _ _ H0 Hgi).
  rewrite !(nodeIndexOf_leaf k) by (auto; apply Sh). rewrite <- (leafPath_number k _ Hme), <- (leafPath_number k _ Hsg), E1, E2.
  rewrite commonAncestor_part; [|apply Sh|rewrite <- E1; apply leafPath_in|rewrite <- E2; apply leafPath_in].
  assert (Ha : in_tree k a) by (pose proof (leafPath_in k (gr_myLeafIndex g0)) as X; rewrite E1 in X; unfold in_tree in *; rewrite app_length in X; lia).
  assert (Fp : full k (gr_privTree g0)).
  { split; [apply Sh|]. apply groupFromSecrets_inv in H0.
    destruct H0 as (psk & gi' & raw & t & signer & epoch & init & interim & me & priv & Epsk & Egi & Eraw & Et & Esg & Esig & Etag & Ecs & Ev & Eep & Ein & Eint & Eme & -> & priv0 & Ep0 & Ep).
    cbn [gs_pathSecret] in Ep. apply Ok_inj in Ep. subst priv0. cbn [gr_privTree]. apply setN_len in Ep0. rewrite Ep0. unfold lenN at 1. rewrite repeat_length.
    destruct Sh as [[_ L] _]. unfold gr_value in L. cbn [gr_heap gr_tree] in L. destruct (load t) as [h pt] eqn:El. destruct (load_value t h pt El) as (V & _ & _).
    cbn [fst snd] in L. rewrite V in L. exact L. }
  destruct (processPathSecret_complete _ k _ _ p a Sh Fp Ha Hlen HK) as (priv' & -> & HK'). cbn [rbind].
  eexists. split; [reflexivity|]. split; [reflexivity|]. exact HK'.
Qed.
End WithCrypto.
