(** Everyone invited by a Welcome joins in the epoch of the commit. *)
From Coq Require Import Lia Permutation.
From Verif Require Export SpecWelcome SoundFacts AgreementFacts.

(** ** Finding one's own leaf *)
Lemma getLeaf_at k t li : shaped k t -> li < leaf_count k -> getLeaf t li = Ok (leaf_at t li).
Proof.
  intros Sh Hli. unfold getLeaf. rewrite (nodeIndexOf_leaf k) by (auto; apply Sh). rewrite (at_leaf k) by (auto; now apply shaped_full). cbn [rbind].
  rewrite (shaped_leaf k) by assumption. now destruct (leaf_at t li).
Qed.

Lemma nth_NoDup_somes {A} (l : list (option A)) : NoDup (somes l) -> forall i j x, nth_error l i = Some (Some x) -> nth_error l j = Some (Some x) -> i = j.
Proof.
  induction l as [|o l IH]; intros Nd i j x Hi Hj; [destruct i; discriminate|].
  change (o :: l) with ([o] ++ l) in Nd. rewrite somes_app in Nd. apply NoDup_app_inv in Nd. destruct Nd as (_ & Nd & Hd).
  destruct i as [|i], j as [|j]; cbn in Hi, Hj; auto.
  - exfalso. injection Hi as ->. apply (Hd x); [cbn; auto|]. apply somes_In. eapply nth_error_In; eauto.
  - exfalso. injection Hj as ->. apply (Hd x); [cbn; auto|]. apply somes_In. eapply nth_error_In; eauto.
  - f_equal. eapply IH; eauto.
Qed.

Lemma same_key_same_leaf t i j a b : NoDup (encryptionKeysOf t) -> leaf_at t i = Some a -> leaf_at t j = Some b -> ln_encryptionKey a = ln_encryptionKey b -> i = j.
Proof.
  intros Nd Ha Hb E. unfold leaf_at in *.
  destruct (nth_error t (N.to_nat (2 * i))) as [[[a'|]|]|] eqn:Ea; try discriminate. destruct (nth_error t (N.to_nat (2 * j))) as [[[b'|]|]|] eqn:Eb; try discriminate.
  injection Ha as ->. injection Hb as ->.
  assert (N.to_nat (2 * i) = N.to_nat (2 * j)); [|lia].
  eapply nth_NoDup_somes; [exact Nd| |]; rewrite nth_error_map, ?Ea, ?Eb; cbn; [reflexivity|now rewrite E].
Qed.

Lemma findLeaf_own k t li l e : shaped k t -> NoDup (encryptionKeysOf t) -> leaf_at t li = Some l -> putLeafNode l = Ok e -> findLeaf t l = Ok (Some li).
Proof.
  intros Sh Nd Hl He. assert (Hli : li < leaf_count k) by (apply (member_in_array k t); [assumption|congruence]).
  unfold findLeaf. rewrite (numLeaves_tree t k) by apply Sh.
  assert (G : forall lis, (forall x, In x lis -> x < leaf_count k) -> In li lis -> findLeafFrom t l lis = Ok (Some li)).
  { induction lis as [|x lis IH]; intros Hx Hin; [destruct Hin|]. cbn [findLeafFrom]. rewrite (getLeaf_at k) by (auto; apply Hx; now left). cbn [rbind].
    destruct (N.eq_dec x li) as [->|Hne].
    - rewrite Hl, bytes_eqb_refl. cbn [negb]. rewrite He, bytes_eqb_refl. reflexivity.
    - destruct Hin as [|Hin]; [contradiction|].
      assert (R : findLeafFrom t l lis = Ok (Some li)) by (apply IH; auto; intros; apply Hx; now right).
      destruct (leaf_at t x) as [n|] eqn:En; [|exact R].
      destruct (bytes_eqb (ln_encryptionKey n) (ln_encryptionKey l)) eqn:Eb; cbn [negb]; [|exact R].
      apply bytes_eqb_true in Eb. exfalso. apply Hne. eapply same_key_same_leaf; eauto. }
  apply G; unfold upto.
  - intros x Hx. apply in_map_iff in Hx. destruct Hx as (i & <- & Hi). apply in_seq in Hi. lia.
  - apply in_map_iff. exists (N.to_nat li). split; [lia|]. apply in_seq. lia.
Qed.

Section WithCrypto.
Context {C : crypto}.

(** ** Adding several members *)
Lemma adds_only kps : forall t s, vapply t (map PAdd kps) s = foldM addStep t (map PAdd kps).
Proof.
  intros t s. rewrite vapply_eq.
  assert (E1 : foldM (updStep s) t (numbered (map PAdd kps)) = Ok t).
  { unfold numbered. rewrite map_length. generalize (seq 0 (length kps)). induction kps as [|k kps IH]; intros [|i l]; cbn; auto. }
  assert (E2 : foldM remStep t (map PAdd kps) = Ok t). { clear E1. induction kps as [|k kps IH]; cbn; auto. }
  rewrite E1. cbn [rbind]. rewrite E2. reflexivity.
Qed.

Lemma go_together_cons cs gid k t l ls t' : crypto_ok C -> sound_tree cs gid k t -> newcomer cs l -> go_together t (l :: ls) -> vadd t l = Ok t' ->
  (exists k', sound_tree cs gid k' t') /\ go_together t' ls /\
  Permutation (leafNodesOf t') (leafNodesOf t ++ [l]) /\ Permutation (encryptionKeysOf t') (encryptionKeysOf t ++ [ln_encryptionKey l]) /\
  exists li, leaf_at t li = None /\ leaf_at t' li = Some l /\ (forall j, j <> li -> leaf_at t' j = leaf_at t j).
Proof.
  intros HC St Hl (G1 & G2 & G3) H. cbn [map] in *.
  assert (G : go_together t [l]).
  { splits.
    - intros a b Ha Hb. apply G1; apply in_app_iff; [apply in_app_iff in Ha; destruct Ha as [Ha|[<-|[]]]|apply in_app_iff in Hb; destruct Hb as [Hb|[<-|[]]]]; cbn; auto.
    - cbn [map]. change (?x :: map ln_signatureKey ls) with ([x] ++ map ln_signatureKey ls) in G2. rewrite app_assoc in G2. now apply NoDup_app_inv in G2.
    - cbn [map]. change (?x :: map ln_encryptionKey ls) with ([x] ++ map ln_encryptionKey ls) in G3. rewrite app_assoc in G3. now apply NoDup_app_inv in G3. }
  destruct (sound_add cs gid k t l t' HC St Hl G H) as (K & PL & PK & R). splits; auto.
  splits.
  - intros a b Ha Hb. apply G1; [clear Hb; rename Ha into Hx|clear Ha; rename Hb into Hx];
      (apply in_app_iff in Hx; apply in_app_iff; cbn [In]; destruct Hx as [Hx|Hx]; [eapply Permutation_in in Hx; [|exact PL]; apply in_app_iff in Hx; cbn in Hx|]; tauto).
  - eapply Permutation_NoDup; [|exact G2]. change (?x :: map ln_signatureKey ls) with ([x] ++ map ln_signatureKey ls). rewrite app_assoc. apply Permutation_app_tail.
    change [ln_signatureKey l] with (map ln_signatureKey [l]). rewrite <- map_app. apply Permutation_map. now symmetry.
  - eapply Permutation_NoDup; [|exact G3]. change (?x :: map ln_encryptionKey ls) with ([x] ++ map ln_encryptionKey ls). rewrite app_assoc. apply Permutation_app_tail. now symmetry.
Qed.

Lemma sound_adds cs gid kps : crypto_ok C -> forall k t t', sound_tree cs gid k t -> Forall (fun p => newcomer cs (kp_leafNode p)) kps ->
  go_together t (map kp_leafNode kps) -> foldM addStep t (map PAdd kps) = Ok t' ->
  (exists k', sound_tree cs gid k' t') /\
  Permutation (leafNodesOf t') (leafNodesOf t ++ map kp_leafNode kps) /\ Permutation (encryptionKeysOf t') (encryptionKeysOf t ++ map ln_encryptionKey (map kp_leafNode kps)) /\
  (forall li x, leaf_at t li = Some x -> leaf_at t' li = Some x) /\
  (forall p, In p kps -> exists li, leaf_at t' li = Some (kp_leafNode p)).
Proof.
  intros HC. induction kps as [|p kps IH]; intros k t t' St Hn G H; cbn [map foldM] in H.
  - apply Ok_inj in H. subst t'. cbn. rewrite !app_nil_r. splits; eauto. intros p [].
  - apply rbind_ok in H. destruct H as (t1 & E & H). cbn [addStep] in E. inversion Hn; subst. cbn [map] in G.
    destruct (go_together_cons cs gid k t _ _ t1 HC St H2 G E) as ((k1 & St1) & G1 & PL & PK & li & L0 & L1 & L2).
    destruct (IH k1 t1 t' St1 H3 G1 H) as (K & PL' & PK' & Keep & Has). splits; auto.
    + etransitivity; [exact PL'|]. cbn [map]. change (kp_leafNode p :: map kp_leafNode kps) with ([kp_leafNode p] ++ map kp_leafNode kps). rewrite app_assoc. now apply Permutation_app_tail.
    + etransitivity; [exact PK'|]. cbn [map]. change (?x :: map ln_encryptionKey (map kp_leafNode kps)) with ([x] ++ map ln_encryptionKey (map kp_leafNode kps)). rewrite app_assoc. now apply Permutation_app_tail.
    + intros j x Hx. apply Keep. destruct (N.eq_dec j li) as [->|Hne]; [congruence|]. now rewrite L2.
    + intros q [<-|Hq]; [|auto]. exists li. now apply Keep.
Qed.

(** ** Sound trees pass verification *)
Lemma distinct_signatures t : NoDup (map ln_signatureKey (leafNodesOf t)) -> distinct_signature_keys t.
Proof.
  intros Nd i j a b Ha Hb E.
  assert (X : NoDup (somes (map (option_map ln_signatureKey) (map leafPart t)))).
  { unfold leafNodesOf in Nd. replace (somes (map (option_map ln_signatureKey) (map leafPart t))) with (map ln_signatureKey (somes (map leafPart t))); [assumption|].
    generalize (map leafPart t). clear. induction l as [|[x|] l IH]; unfold somes in *; cbn; [reflexivity|f_equal; exact IH|exact IH]. }
  unfold leaf_at in *. destruct (nth_error t (N.to_nat (2 * i))) as [[[a'|]|]|] eqn:Ea; try discriminate. destruct (nth_error t (N.to_nat (2 * j))) as [[[b'|]|]|] eqn:Eb; try discriminate.
  injection Ha as ->. injection Hb as ->. assert (N.to_nat (2 * i) = N.to_nat (2 * j)); [|lia].
  eapply nth_NoDup_somes; [exact X| |]; rewrite !nth_error_map, ?Ea, ?Eb; cbn; [reflexivity|now rewrite E].
Qed.
Lemma distinct_encryptions k t : full k t -> NoDup (encryptionKeysOf t) -> distinct_encryption_keys k t.
Proof.
  intros F Nd p q n m Hp Hq Hn Hm E. apply (number_inj k); auto. unfold at_path in *.
  destruct (nth_error t (N.to_nat (number k p))) as [o|] eqn:Ep; [|discriminate]. destruct (nth_error t (N.to_nat (number k q))) as [o'|] eqn:Eq; [|discriminate]. subst.
  assert (N.to_nat (number k p) = N.to_nat (number k q)); [|lia]. eapply nth_NoDup_somes; [exact Nd| |]; rewrite nth_error_map, ?Ep, ?Eq; cbn; [reflexivity|now rewrite E].
Qed.

Lemma sound_integrity k t ctx now : sound_tree (gc_cipherSuite ctx) (gc_groupID ctx) k t ->
  (exists d, cipherSuiteDescriptions (gc_cipherSuite ctx) = Some d) -> gc_treeHash ctx = tree_hash (gc_cipherSuite ctx) k t [] k [] ->
  Forall (current_leaf now) (leafNodesOf t) -> integrity k t ctx now.
Proof.
  intros St Hd Hh Hc. split.
  - unfold integrity_but_credentials. splits; auto.
    + eapply st_parents; eauto.
    + intros li l Hl. pose proof (leaf_at_leafNodesOf t li l Hl) as Hin. unfold leaf_checked. rewrite Forall_forall in Hc. splits.
      * eapply st_signed; eauto.
      * intros lt Hlt. now apply (Hc l Hin).
      * pose proof (st_capabilities _ _ _ _ St) as Hp. rewrite Forall_forall in Hp. apply (Hp l Hin).
    + apply distinct_signatures. eapply st_signatureKeys; eauto.
    + apply distinct_encryptions; [apply shaped_full|]; [eapply st_shaped; eauto|eapply st_encryptionKeys; eauto].
    + eapply st_unmerged; eauto.
  - intros li l Hl lj m Hm. eapply st_support; eauto; eapply leaf_at_leafNodesOf; eauto.
Qed.

Lemma sound_lists_once cs gid k t : sound_tree cs gid k t -> lists_once t.
Proof.
  intros St li l Hl. apply leaf_at_leafNodesOf in Hl. pose proof (st_capabilities _ _ _ _ St) as Hp. rewrite Forall_forall in Hp. apply (Hp l Hl).
Qed.

Lemma sound_wf cs gid k t : sound_tree cs gid k t -> wf_ratchetTree t.
Proof.
  intros St. split; [eapply st_wf; eauto|]. right. exists (N.of_nat k). pose proof (st_shaped _ _ _ _ St) as [[_ F] _]. split; [rewrite F; apply node_leaf_count|].
  destruct (st_smallest _ _ _ _ St) as (li & Hl & Hj). unfold leaf_at in Hl.
  destruct (nth_error t (N.to_nat (2 * li))) as [[[l|]|]|] eqn:E; try congruence. exists (N.to_nat (2 * li)), (NLeaf l). split; [assumption|]. rewrite N2Nat.id.
  destruct k as [|k]; [cbn; lia|]. specialize (Hj k ltac:(lia)). unfold leaf_count in Hj. rewrite Nat2N.inj_succ, N.pow_succ_r'. lia.
Qed.

(** ** Opening a Welcome *)
Lemma hpke_rt cs d pub priv label ctx pt rnd ko ct : cipherSuiteDescriptions cs = Some d -> hpke_pair C (sd_kem d) pub priv ->
  encryptWithLabel cs pub label ctx pt rnd = Ok (ko, ct) -> decryptWithLabel cs priv label ctx ko ct = Ok pt.
Proof.
  intros Hd Hp H. unfold encryptWithLabel in H. unfold decryptWithLabel. apply rbind_ok in H. destruct H as (ec & -> & H).
  rewrite (proj2 (describe_ok _ _) Hd) in *. cbn [rbind] in *.
  destruct (Hp (sd_kdf d) (sd_aead d) ec rnd pt) as (ko' & ct' & Hs & Ho). rewrite Hs in H. apply Ok_inj in H. apply pair_equal_spec in H. destruct H as [-> ->].
  now rewrite Ho.
Qed.

Lemma secret_opened cs d s egi kps p priv : cipherSuiteDescriptions cs = Some d -> wf_groupSecrets s -> hpke_pair C (sd_kem d) (kp_initKey p) priv ->
  forall rnds l, encryptSecretsFor cs s egi kps rnds = Ok l -> NoDup (map egs_newMember l) -> In p kps ->
  exists ref, keyPackageRef p = Ok ref /\ decryptGroupSecrets (mkWelcome cs l egi) ref priv = Ok s.
Proof.
  intros Hd Hs Hp. induction kps as [|k kps IH]; intros rnds l H Nd Hin; [destruct Hin|]. cbn [encryptSecretsFor] in H.
  apply rbind_ok in H. destruct H as (ref & Hr & H). apply rbind_ok in H. destruct H as (hc & Hc & H). apply rbind_ok in H. destruct H as (rest & Hrest & H). apply Ok_inj in H. subst l.
  cbn [map egs_newMember] in Nd. apply NoDup_cons_iff in Nd. destruct Nd as [Hni Nd].
  destruct Hin as [<-|Hin].
  - exists ref. split; [assumption|]. unfold decryptGroupSecrets, findSecret. cbn [w_secrets find egs_newMember]. rewrite bytes_eqb_refl. cbn [w_cipherSuite w_encryptedGroupInfo egs_secrets].
    unfold groupSecretsEncrypt in Hc. apply rbind_ok in Hc. destruct Hc as (raw & Hraw & Hc). apply rbind_ok in Hc. destruct Hc as ([ko ct] & Hk & Hc). apply Ok_inj in Hc. subst hc.
    cbn [hc_kemOutput hc_ciphertext]. rewrite (hpke_rt _ _ _ _ _ _ _ _ _ _ Hd Hp Hk). cbn [rbind]. apply (unmarshal_RT _ _ _ _ _ groupSecrets_RT Hs Hraw).
  - destruct (IH _ _ Hrest Nd Hin) as (ref' & Hr' & Hdec). exists ref'. split; [assumption|].
    unfold decryptGroupSecrets, findSecret in *. cbn [w_secrets find egs_newMember w_cipherSuite w_encryptedGroupInfo] in *.
    destruct (bytes_eqb ref ref') eqn:E; [|exact Hdec]. apply bytes_eqb_true in E. subst ref'. exfalso. apply Hni.
    destruct (find (fun s0 => bytes_eqb (egs_newMember s0) ref) rest) as [x|] eqn:F; [|discriminate]. apply find_some in F. destruct F as [F1 F2]. apply bytes_eqb_true in F2. subst ref. now apply in_map.
Qed.

Lemma info_opened gi joiner psk egi cs l : crypto_ok C -> wf_groupInfo gi -> gc_cipherSuite (gi_groupContext gi) = cs ->
  groupInfoEncrypt gi joiner psk = Ok egi -> decryptGroupInfo (mkWelcome cs l egi) joiner psk = Ok gi.
Proof.
  intros HC Hw <- H. unfold groupInfoEncrypt in H. cbv zeta in H. unfold decryptGroupInfo. cbv zeta. cbn [w_cipherSuite w_encryptedGroupInfo].
  apply rbind_ok in H. destruct H as ([key nonce] & Hk & H). apply rbind_ok in H. destruct H as (raw & Hraw & H). rewrite Hk. cbn [rbind].
  rewrite (aead_rt _ _ _ _ _ _ HC H). cbn [rbind]. apply (unmarshal_RT _ _ _ _ _ groupInfo_RT Hw Hraw).
Qed.

Lemma writeAll_each {A} (f : A -> W) l e : writeAll f l = Ok e -> forall x, In x l -> exists b, f x = Ok b.
Proof.
  revert e. induction l as [|y l IH]; intros e H x Hx; [destruct Hx|]. cbn [writeAll] in H.
  apply wapp_ok in H. destruct H as (b & c & E & E2 & _). destruct Hx as [<-|Hx]; [eauto|]. exact (IH c E2 x Hx).
Qed.
Lemma putRatchetTree_encodable t raw : putRatchetTree t = Ok raw -> encodable t.
Proof.
  intros H n Hn. unfold putRatchetTree, writeVector in H. destruct (writeAll putOptionalNode (trimBlanks t)) as [b| | |] eqn:E; try discriminate.
  destruct (trimBlanks_app t) as [j Hj]. rewrite Hj in Hn. apply in_app_iff in Hn. destruct Hn as [Hn|Hn]; [|apply repeat_spec in Hn; discriminate].
  destruct (writeAll_each _ _ _ E _ Hn) as (c & Hc). cbn in Hc. destruct (putNode n) as [r| | |]; try discriminate. eauto.
Qed.
Lemma encodable_leaf t li l : encodable t -> leaf_at t li = Some l -> exists e, putLeafNode l = Ok e.
Proof.
  intros He Hl. unfold leaf_at in Hl. destruct (nth_error t (N.to_nat (2 * li))) as [[[l'|]|]|] eqn:E; try discriminate. injection Hl as ->.
  apply nth_error_In in E. destruct (He _ E) as (b & Hb). cbn in Hb. destruct (putLeafNode l); try discriminate. eauto.
Qed.

Lemma own_leaf_at g l : own_leaf g l <-> leaf_at (gr_value g) (designated (gr_myLeafIndex g)) = Some l.
Proof.
  unfold own_leaf, leaf_at. change (leaf_position (gr_myLeafIndex g)) with (nodeIndexOf (gr_myLeafIndex g)). rewrite nodeIndexOf_designated. split; intros H.
  - now rewrite H.
  - destruct (nth_error (gr_value g) _) as [[[l'|]|]|]; congruence.
Qed.

Lemma findLeaf_lt k t li l : shaped k t -> leaf_at t li = Some l -> li < leaf_count k.
Proof. intros Sh H. apply (member_in_array k t); [assumption|congruence]. Qed.

(** Anyone who is invited joins in the epoch of the commit. *)
Theorem welcome_joined g kps rs ri rh rg w raw e sg tag joiner kpp now : crypto_ok C -> in_order g -> may_join g kps ->
  welcoming g kps rs ri rh rg w raw e sg tag joiner -> NoDup (welcomeNewMembers w) ->
  In (kpp_public kpp) kps -> holds_private_keys kpp -> later_than_1970 now -> all_current g kps now ->
  (exists k', sound_tree (gc_cipherSuite (ed_context e)) (gc_groupID (ed_context e)) k' (ed_tree e)) /\
  (forall li l, leaf_at (gr_value g) li = Some l -> leaf_at (ed_tree e) li = Some l) /\
  exists g3, groupFromWelcome w kpp now = Ok g3 /\ in_epoch g3 e /\ in_order g3 /\
    leaf_at (gr_value g3) (gr_myLeafIndex g3) = Some (kp_leafNode (kpp_public kpp)) /\ gr_pending g3 = [] /\ gr_signaturePriv g3 = kpp_signatureKey kpp.
Proof.
  intros HC Ho (Hwk & Hadd & Hnew & Hgo) W Nd Hin Hpriv Hnow Hcur.
  destruct Ho as [Hctxwf Hidx Hcons (ml & alg & Hml & Halg & Hsp) (k & St)].
  destruct (cipherSuiteDescriptions (gc_cipherSuite (gr_context g))) as [d|] eqn:Hd; [|discriminate]. cbn in Halg. injection Halg as <-.
  destruct W as [Wt _ (th & confirmed & Hth & Hconf & Hctx & Hint) (nh & Hnh & Hj) Hpsk Hes Htag Hini Hraw (rawTree & gi & egi & secrets & Hrt & Hgi & Hegi & Hsec & ->)].
  rewrite adds_only in Wt.
  destruct (sound_adds _ _ kps HC k _ _ St Hnew Hgo Wt) as ((k' & St') & PL & _ & Keep & Has).
  set (ctx := ed_context e) in *. set (t := ed_tree e) in *.
  assert (Ecs : gc_cipherSuite ctx = gc_cipherSuite (gr_context g)) by (rewrite Hctx; reflexivity).
  assert (Egid : gc_groupID ctx = gc_groupID (gr_context g)) by (rewrite Hctx; reflexivity).
  assert (Eth : gc_treeHash ctx = th) by (rewrite Hctx; reflexivity).
  assert (Econf : gc_confirmedTranscriptHash ctx = confirmed) by (rewrite Hctx; reflexivity).
  assert (Hcwf : wf_groupContext ctx).
  { destruct Hctxwf as (V1 & V2 & V3 & V4). rewrite Hctx. unfold wf_groupContext, nextContext. cbn [gc_version gc_cipherSuite gc_epoch gc_extensions]. splits; auto. unfold u64. apply N.mod_lt. discriminate. }
  assert (St2 : sound_tree (gc_cipherSuite ctx) (gc_groupID ctx) k' t) by (rewrite Ecs, Egid; exact St').
  splits; [eauto|exact Keep|].
  pose proof (st_shaped _ _ _ _ St') as Sh. pose proof (putRatchetTree_encodable _ _ Hrt) as Henc.
  destruct (Has _ Hin) as (me & Hme). destruct (encodable_leaf _ _ _ Henc Hme) as (le & Hle).
  pose proof (findLeaf_lt _ _ _ _ Sh Hme) as Hmelt.
  unfold welcomeNewMembers in Nd. cbn [w_secrets] in Nd.
  destruct Hpriv as (d' & Hd' & Hik & Hek & Hsk).
  assert (Hkcs : kp_cipherSuite (kpp_public kpp) = gc_cipherSuite (gr_context g)).
  { rewrite Forall_forall in Hadd. apply (Hadd _ Hin). }
  rewrite Hkcs, Hd in Hd'. injection Hd' as <-.
  destruct (secret_opened _ d (mkGroupSecrets joiner None []) egi kps (kpp_public kpp) (kpp_initKey kpp) Hd ltac:(constructor) Hik rh secrets Hsec Nd Hin) as (ref & Href & Hdec).
  (* the group information *)
  unfold groupInfoSign in Hgi. apply rbind_ok in Hgi. destruct Hgi as (tbs & Htbs & Hgi). apply rbind_ok in Hgi. destruct Hgi as (gsig & Hgsig & Hgi). apply Ok_inj in Hgi.
  cbn [gi_groupContext gi_extensions gi_confirmationTag gi_signer] in Hgi, Hgsig.
  assert (Hgw : wf_groupInfo gi).
  { subst gi. unfold wf_groupInfo. cbn [gi_groupContext gi_extensions gi_signer]. splits; auto. constructor; [|constructor]. reflexivity. }
  assert (Hgic : gi_groupContext gi = ctx) by (subst gi; reflexivity).
  assert (Hopen : decryptGroupInfo (mkWelcome (gc_cipherSuite (gr_context g)) secrets egi) joiner (ed_psk e) = Ok gi).
  { apply info_opened; auto. now rewrite Hgic. }
  assert (Hsigner : getLeaf t (gr_myLeafIndex g) = Ok (Some ml)).
  { apply getLeaf_some. rewrite nodeIndexOf_designated. apply own_leaf_at in Hml. apply Keep in Hml. unfold leaf_at in Hml.
    destruct (nth_error t _) as [[[l'|]|]|]; congruence. }
  assert (Hver : groupInfoVerifySignature gi (ln_signatureKey ml) = Ok true).
  { unfold groupInfoVerifySignature, falseOnPutErr. subst gi. cbn [gi_groupContext gi_extensions gi_confirmationTag gi_signer gi_signature].
    change (putGroupInfoTBS (mkGroupInfo ctx [mkExtension 2 rawTree] tag (gr_myLeafIndex g) gsig)) with (putGroupInfoTBS (mkGroupInfo ctx [mkExtension 2 rawTree] tag (gr_myLeafIndex g) [])).
    rewrite Htbs. rewrite Ecs in *. eapply signed_verifies; eauto. }
  assert (Htagok : groupInfoVerifyConfirmationTag gi joiner (ed_psk e) = Ok true).
  { unfold groupInfoVerifyConfirmationTag. cbv zeta. apply (proj2 (falseOnErr_true _)). rewrite Hgic, Hes. cbn [rbind]. unfold signConfirmationTag in Htag. cbv zeta in Htag.
    apply rbind_ok in Htag. destruct Htag as (ck & Hck & Htag). rewrite Hck. cbn [rbind]. unfold verifyMAC. rewrite Htag. cbn [rbind]. subst gi. cbn [gi_confirmationTag]. now rewrite bytes_eqb_refl. }
  assert (Hcurt : Forall (current_leaf now) (leafNodesOf t)).
  { eapply Permutation_Forall; [symmetry; exact PL|exact Hcur]. }
  assert (Hvi : verifyIntegrity t ctx now = Ok tt).
  { apply (verifyIntegrity_complete k'); auto.
    - apply wf_nodes_lifetimes. eapply st_wf; eauto.
    - eapply sound_lists_once; eauto.
    - apply sound_integrity; auto; [exists d; now rewrite Ecs|]. rewrite Eth, Ecs. now apply (rootTreeHash_sound k'). }
  assert (Htree : unmarshal getRatchetTree rawTree = Ok t).
  { apply unmarshal_ok. rewrite <- (app_nil_r rawTree). apply ratchetTree_rt; [|assumption]. eapply sound_wf; eauto. }
  assert (Hfind : findLeaf t (kp_leafNode (kpp_public kpp)) = Ok (Some me)).
  { eapply findLeaf_own; eauto. eapply st_encryptionKeys; eauto. }
  assert (Hni : nodeIndexOf me = 2 * me) by (apply (nodeIndexOf_leaf k'); auto; apply Sh).
  assert (Hlt : 2 * me < lenN t).
  { unfold leaf_at in Hme. destruct (nth_error t (N.to_nat (2 * me))) eqn:En; [|discriminate]. assert (N.to_nat (2 * me) < length t)%nat by (apply nth_error_Some; congruence). unfold lenN. lia. }
  pose (priv := upd (repeat None (length t)) (N.to_nat (2 * me)) (Some (kpp_encryptionKey kpp))).
  assert (Hset : setN (repeat None (length t)) (nodeIndexOf me) (Some (kpp_encryptionKey kpp)) = Ok priv).
  { rewrite Hni. apply setN_in. unfold lenN in *. now rewrite repeat_length. }
  destruct (load t) as [h pt] eqn:El. destruct (load_value t h pt El) as (V & P & L).
  exists (mkGroup h pt ctx (ed_interim e) (ed_psk e) (ed_epoch e) (ed_init e) me priv (kpp_signatureKey kpp) []).
  assert (Hres : groupFromWelcome (mkWelcome (gc_cipherSuite (gr_context g)) secrets egi) kpp now =
    Ok (mkGroup h pt ctx (ed_interim e) (ed_psk e) (ed_epoch e) (ed_init e) me priv (kpp_signatureKey kpp) [])).
  { unfold groupFromWelcome. rewrite Href. cbn [rbind]. rewrite Hdec. cbn [rbind]. change (verifySingleReinitOrBranchPSK (mkGroupSecrets joiner None [])) with true.
    cbn [gs_psks guard rbind]. change (lenN [] =? 0) with true. cbn [guard rbind]. unfold groupFromSecrets. cbn [w_cipherSuite gs_psks gs_joinerSecret gs_pathSecret].
    rewrite Hpsk. cbn [rbind]. rewrite Hopen. cbn [rbind]. cbv zeta.
    replace (findExtensionData (gi_extensions gi) 2) with (Some rawTree) by (subst gi; reflexivity). replace (gi_signer gi) with (gr_myLeafIndex g) by (subst gi; reflexivity).
    replace (gi_confirmationTag gi) with tag by (subst gi; reflexivity).
    rewrite Htree. cbn [rbind]. rewrite Hsigner. cbn [rbind]. rewrite Hver. cbn [guard rbind]. rewrite Htagok. cbn [guard rbind].
    rewrite Hgic, Ecs, N.eqb_refl. cbn [guard rbind]. rewrite Hvi. cbn [rbind]. rewrite Hes. cbn [rbind]. rewrite Hini. cbn [rbind]. rewrite Econf, Hint. cbn [rbind].
    rewrite Hfind. cbn [rbind]. rewrite Hset. cbn [rbind]. rewrite El. reflexivity. }
  assert (Hlen : length priv = length pt). { unfold priv. rewrite upd_length, repeat_length. now symmetry. }
  assert (Hme32 : u32 me). { unfold u32. pose proof (shaped_full _ _ Sh) as [Fk _]. unfold fits in Fk. unfold leaf_count in Hmelt. assert (2 ^ N.of_nat k' <= 2 ^ 31) by (apply N.pow_le_mono_r; lia). change (2 ^ 32) with 4294967296. change (2 ^ 31) with 2147483648 in *. lia. }
  split; [exact Hres|]. split; [|split; [|split; [|split; reflexivity]]].
  - unfold in_epoch, gr_value. cbn [gr_heap gr_tree gr_context gr_interimTranscriptHash gr_pskSecret gr_epochSecret gr_initSecret]. rewrite V. splits; reflexivity.
  - constructor; unfold gr_value, consistent; cbn [gr_heap gr_tree gr_context gr_myLeafIndex gr_privTree]; auto.
    + exists (kp_leafNode (kpp_public kpp)), (sd_sig d). unfold own_leaf, gr_value. cbn [gr_heap gr_tree gr_context gr_myLeafIndex gr_signaturePriv]. splits.
      * change (leaf_position me) with (nodeIndexOf me). rewrite Hni, V. unfold leaf_at in Hme. destruct (nth_error t (N.to_nat (2 * me))) as [[[l'|]|]|]; congruence.
      * now rewrite Ecs, Hd.
      * exact Hsk.
    + rewrite V. eauto.
  - unfold gr_value. cbn [gr_heap gr_tree gr_myLeafIndex]. now rewrite V.
Qed.
End WithCrypto.
