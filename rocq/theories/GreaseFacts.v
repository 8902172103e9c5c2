(** GREASE values change nothing: C117. *)
From Verif Require Export SpecGrease CodecFacts2 ModelFacts IntegrityFacts.

Lemma grease_u16 v : is_grease v = true -> u16 v.
Proof.
  unfold is_grease. intros H. apply existsb_exists in H as (x & Hx & E). apply N.eqb_eq in E. subst v. revert x Hx.
  assert (F : forallb (fun x => x <? 2 ^ 16) grease = true) by reflexivity. rewrite forallb_forall in F. intros x Hx. apply N.ltb_lt. exact (F x Hx).
Qed.
Lemma meant_in v l : is_grease v = false -> In v l <-> In v (meant l).
Proof. intros G. unfold meant. rewrite filter_In, G. tauto. Qed.
Lemma meant_u16 l l' : same_but_grease l l' -> Forall u16 l -> Forall u16 l'.
Proof.
  unfold same_but_grease. intros E H. rewrite Forall_forall in *. intros v Hv. destruct (is_grease v) eqn:G; [now apply grease_u16|].
  apply (meant_in v l' G) in Hv. rewrite E in Hv. apply (meant_in v l G) in Hv. now apply H.
Qed.
Lemma meant_wf_extensions l l' : meant_extensions l' = meant_extensions l -> Forall wf_extension l -> Forall wf_extension l'.
Proof.
  intros E H. rewrite Forall_forall in *. intros e He. unfold wf_extension. destruct (is_grease (ext_type e)) eqn:G; [now apply grease_u16|].
  assert (I : In e (meant_extensions l')) by (apply filter_In; rewrite G; auto). rewrite E in I. apply filter_In in I as [I _]. exact (H e I).
Qed.
Lemma greased_wf_leaf l l' : leaf_greased l l' -> wf_leafNode l -> wf_leafNode l'.
Proof.
  intros [H1 H2 H3 H4 H5 H6 [D1 D2 D3 D4 D5] H8] (W1 & (C1 & C2 & C3 & C4 & C5) & W3 & W4). unfold wf_leafNode, wf_capabilities.
  rewrite H3, H4, H5, H6. splits; eauto using meant_u16, meant_wf_extensions.
Qed.
Lemma greased_wf_package k k' : package_greased k k' -> wf_keyPackage k -> wf_keyPackage k'.
Proof.
  intros [H1 H2 H3 H4 H5] (W1 & W2 & W3 & W4). unfold wf_keyPackage. rewrite H1, H2. splits; eauto using greased_wf_leaf, meant_wf_extensions.
Qed.

Theorem greased_decodes k k' raw : wf_keyPackage k -> package_greased k k' -> keyPackageBytes k' = Ok raw -> unmarshalKeyPackage raw = Ok k'.
Proof. intros W G. apply unmarshalKeyPackage_Bytes. exact (greased_wf_package k k' G W). Qed.

Lemma meant_mem v l l' : same_but_grease l l' -> is_grease v = false -> memN v l' = memN v l.
Proof.
  intros E G. assert (M : forall m, memN v m = memN v (meant m)).
  { clear -G. induction m as [|x m IH]; [reflexivity|]. unfold meant in *. cbn [memN existsb filter] in *. unfold memN in *. destruct (is_grease x) eqn:Gx; cbn [negb existsb].
    - destruct (N.eqb_spec v x) as [->|_]; [congruence|]. exact IH.
    - now rewrite IH. }
  now rewrite (M l'), (M l), E.
Qed.
Lemma memN_In v l : memN v l = true <-> In v l.
Proof.
  unfold memN. rewrite existsb_exists. split; [intros (x & Hx & E); apply N.eqb_eq in E; congruence|]. intros H. exists v. split; [exact H|apply N.eqb_refl].
Qed.
Lemma listed_meant l : grease_listed l -> forallb (fun e => memN (ext_type e) (caps_extensions (ln_capabilities l))) (ln_extensions l) =
  forallb (fun e => memN (ext_type e) (caps_extensions (ln_capabilities l))) (meant_extensions (ln_extensions l)).
Proof.
  unfold grease_listed, meant_extensions. generalize (ln_extensions l) as m. induction m as [|e m IH]; intros H; [reflexivity|]. cbn [filter forallb].
  rewrite IH by (intros e' He'; apply H; now right). destruct (is_grease (ext_type e)) eqn:G; cbn [negb forallb]; [|reflexivity].
  rewrite (proj2 (memN_In _ _) (H e (or_introl eq_refl) G)). reflexivity.
Qed.

Section WithCrypto.
Context {C : crypto}.

Theorem greased_package k k' ctx : package_greased k k' ->
  keyPackageVerifySignature k = Ok true -> keyPackageVerifySignature k' = Ok true ->
  keyPackageVerify k' ctx = keyPackageVerify k ctx.
Proof.
  intros [K1 K2 K3 [H1 H2 H3 H4 H5 H6 H7 H8] K5] S1 S2. unfold keyPackageVerify. now rewrite K1, K2, K3, H1, H4, S1, S2.
Qed.

Theorem greased_leaf l l' o o' : leaf_greased l l' -> grease_listed l -> grease_listed l' ->
  is_grease (cred_type (ln_credential l)) = false ->
  memN (cred_type (ln_credential l)) (vo_supportedCreds o') = memN (cred_type (ln_credential l)) (vo_supportedCreds o) ->
  vo_signatureKeys o' = vo_signatureKeys o -> vo_encryptionKeys o' = vo_encryptionKeys o -> vo_now o' = vo_now o ->
  leafNodeVerifySignature (vo_cipherSuite o) (vo_groupID o) (vo_leafIndex o) l = Ok true ->
  leafNodeVerifySignature (vo_cipherSuite o') (vo_groupID o') (vo_leafIndex o') l' = Ok true ->
  leafNodeVerify l' o' = leafNodeVerify l o.
Proof.
  intros [H1 H2 H3 H4 H5 H6 [D1 D2 D3 D4 D5] H8] L L' G Hc Hs He Hn S1 S2. unfold leafNodeVerify. rewrite S1, S2, H3, H5, H2, H1, Hc, Hs, He, Hn.
  rewrite (listed_meant l L), (listed_meant l' L'), H8.
  assert (E : forallb (fun e => memN (ext_type e) (caps_extensions (ln_capabilities l'))) (meant_extensions (ln_extensions l)) =
    forallb (fun e => memN (ext_type e) (caps_extensions (ln_capabilities l))) (meant_extensions (ln_extensions l))).
  { unfold meant_extensions. generalize (ln_extensions l) as m. induction m as [|e m IH]; [reflexivity|]. cbn [filter]. destruct (is_grease (ext_type e)) eqn:Ge; cbn [negb]; [exact IH|].
    cbn [forallb]. now rewrite IH, (meant_mem _ _ _ D3 Ge). }
  now rewrite E.
Qed.
End WithCrypto.

Lemma greased_leaves t t' li o : Forall2 node_greased t t' -> getLeaf t li = Ok o ->
  exists o', getLeaf t' li = Ok o' /\ match o, o' with Some l, Some l' => leaf_greased l l' | None, None => True | _, _ => False end.
Proof.
  intros F H. unfold getLeaf in *. apply rbind_ok in H as (n & E & H). apply getN_ok in E.
  assert (X : exists n', nth_error t' (N.to_nat (nodeIndexOf li)) = Some n' /\ node_greased n n').
  { clear H. revert E. generalize (N.to_nat (nodeIndexOf li)) as i. induction F as [|a a' t t' Ha F IH]; intros [|i]; cbn; try discriminate; [|apply IH].
    intros E. injection E as <-. eauto. }
  destruct X as (n' & E' & G). apply getN_ok in E'. rewrite E'. cbn [rbind]. destruct n as [[l|p]|]; [|discriminate|].
  - destruct n' as [[l'|p']|]; cbn in G; try discriminate. apply Ok_inj in H. subst o. eexists. split; [reflexivity|]. exact G.
  - cbn in G. subst n'. apply Ok_inj in H. subst o. eexists. split; [reflexivity|]. exact I.
Qed.
Lemma greased_members t t' : Forall2 node_greased t t' -> forall lis m, membersFrom t lis = Ok m ->
  exists m', membersFrom t' lis = Ok m' /\ Forall2 (fun p p' => leaf_greased (snd p) (snd p')) m m'.
Proof.
  intros F. induction lis as [|li lis IH]; cbn [membersFrom]; intros m H.
  - apply Ok_inj in H. subst m. eauto.
  - apply rbind_ok in H as (o & E & H). apply rbind_ok in H as (m0 & E0 & H). destruct (greased_leaves _ _ _ _ F E) as (o' & E' & G).
    destruct (IH _ E0) as (m0' & E0' & Fm). rewrite E', E0'. cbn [rbind]. destruct o as [l|], o' as [l'|]; try contradiction; apply Ok_inj in H; subst m; eexists; (split; [reflexivity|]); auto.
Qed.

Lemma Forall2_len {A B} (R : A -> B -> Prop) l m : Forall2 R l m -> length m = length l.
Proof. induction 1; cbn; congruence. Qed.
Lemma count_meant v l : is_grease v = false -> filter (N.eqb v) l = filter (N.eqb v) (meant l).
Proof.
  intros G. induction l as [|x l IH]; [reflexivity|]. unfold meant in *. cbn [filter]. destruct (N.eqb_spec v x) as [<-|D].
  - rewrite G. cbn [negb filter]. now rewrite N.eqb_refl, IH.
  - rewrite IH. destruct (is_grease x); cbn [negb filter]; [reflexivity|]. destruct (N.eqb_spec v x); [contradiction|reflexivity].
Qed.
Lemma supported_mem ct n l : memN ct (filter (fun c => (length (filter (N.eqb c) l) =? n)%nat) l) =
  memN ct l && (length (filter (N.eqb ct) l) =? n)%nat.
Proof.
  apply eq_true_iff_eq. rewrite andb_true_iff, !memN_In, filter_In. tauto.
Qed.
Theorem greased_support t t' creds : Forall2 node_greased t t' -> supportedCreds t = Ok creds ->
  exists creds', supportedCreds t' = Ok creds' /\ forall ct, is_grease ct = false -> memN ct creds' = memN ct creds.
Proof.
  intros F H. unfold supportedCreds in *. apply rbind_ok in H as (m & E & H). apply Ok_inj in H. subst creds. unfold members in *.
  assert (L : numLeaves t' = numLeaves t) by (unfold numLeaves, lenN; now rewrite (Forall2_len _ _ _ F)). rewrite L.
  destruct (greased_members _ _ F _ _ E) as (m' & -> & Fm). cbn [rbind]. eexists. split; [reflexivity|]. intros ct G.
  rewrite !supported_mem. rewrite (Forall2_len _ _ _ Fm).
  assert (S : same_but_grease (flat_map (fun p => caps_credentials (ln_capabilities (snd p))) m) (flat_map (fun p => caps_credentials (ln_capabilities (snd p))) m')).
  { unfold same_but_grease. clear -Fm. induction Fm as [|p p' m m' H Fm IH]; [reflexivity|]. cbn [flat_map]. unfold meant in *. rewrite !filter_app, IH. f_equal.
    destruct H as [_ _ _ _ _ _ [_ _ _ _ D] _]. exact D. }
  rewrite (meant_mem ct _ _ S G), (count_meant ct _ G), (count_meant ct (flat_map _ m) G), S. reflexivity.
Qed.

Lemma greased_node t t' x o : Forall2 node_greased t t' -> getN t x = Ok o -> exists o', getN t' x = Ok o' /\ node_greased o o'.
Proof.
  intros F E. apply getN_ok in E. assert (X : exists o', nth_error t' (N.to_nat x) = Some o' /\ node_greased o o').
  { revert E. generalize (N.to_nat x) as i. induction F as [|a a' t t' Ha F IH]; intros [|i]; cbn; try discriminate; [|apply IH].
    intros E. injection E as <-. eauto. }
  destruct X as (o' & E' & G). exists o'. split; [now apply getN_ok|exact G].
Qed.
Lemma greased_unmerged t t' n p u : Forall2 node_greased t t' -> forall fuel x, verifyUnmergedLeaf fuel t n p u x = Ok tt -> verifyUnmergedLeaf fuel t' n p u x = Ok tt.
Proof.
  intros F. induction fuel as [|fuel IH]; intros x H; cbn [verifyUnmergedLeaf] in *; (destruct (parent n x) as [x'|]; [|discriminate]);
    (destruct (x' =? p); [exact H|]); apply rbind_ok in H as (o & E & H); destruct (greased_node _ _ _ _ F E) as (o' & -> & G); cbn [rbind];
    apply rbind_ok in H as ([] & Hq & H); [discriminate|].
  assert (Q : match o' with None => Ok tt | Some (NLeaf _) => Panic "nil pointer dereference"
              | Some (NParent q) => guard (hasUnmergedLeaf q u) "mls: non-blank intermediate node is missing unmerged leaf" end = Ok tt).
  { destruct o as [[l|q]|]; [discriminate|..]; cbn in G; subst o'; exact Hq. }
  rewrite Q. cbn [rbind]. exact (IH _ H).
Qed.
Lemma greased_parents t t' : Forall2 node_greased t t' -> forall xs keys, verifyParents t xs keys = Ok tt -> verifyParents t' xs keys = Ok tt.
Proof.
  intros F. assert (L : numLeaves t' = numLeaves t) by (unfold numLeaves, lenN; now rewrite (Forall2_len _ _ _ F)).
  induction xs as [|x xs IH]; intros keys H; cbn [verifyParents] in *; [reflexivity|].
  apply rbind_ok in H as (o & E & H). destruct (greased_node _ _ _ _ F E) as (o' & -> & G). cbn [rbind].
  destruct o as [[l|q]|]; cbn in G.
  - destruct o' as [[l'|q']|]; try discriminate. exact (IH _ H).
  - subst o'. apply rbind_ok in H as ([] & Hf & H). apply rbind_ok in H as ([] & Hg & H). rewrite L.
    assert (Hf' : foldM (fun _ li => verifyUnmergedLeaf 40 t' (numLeaves t) x li (nodeIndexOf li)) tt (pn_unmergedLeaves q) = Ok tt).
    { revert Hf. generalize (pn_unmergedLeaves q) as us. induction us as [|u us IHu]; cbn [foldM]; [reflexivity|]. intros H0. apply rbind_ok in H0 as ([] & Hu & H0).
      rewrite (greased_unmerged _ _ _ _ _ F _ _ Hu). cbn [rbind]. exact (IHu H0). }
    rewrite Hf'. cbn [rbind]. rewrite Hg. cbn [rbind]. exact (IH _ H).
  - subst o'. exact (IH _ H).
Qed.

Section WithCrypto2.
Context {C : crypto}.
Lemma verified_listed l o : leafNodeVerify l o = Ok tt -> leafNodeVerifySignature (vo_cipherSuite o) (vo_groupID o) (vo_leafIndex o) l = Ok true /\ grease_listed l.
Proof.
  unfold leafNodeVerify. intros H. apply rbind_ok in H as (sg & Hs & H). apply rbind_ok in H as ([] & H0 & H). apply rbind_ok in H as ([] & _ & H).
  apply rbind_ok in H as ([] & _ & H). apply rbind_ok in H as ([] & H1 & H). destruct sg; [|discriminate]. split; [exact Hs|].
  destruct (forallb _ (ln_extensions l)) eqn:E; [|discriminate]. rewrite forallb_forall in E. intros e He _. apply memN_In. exact (E e He).
Qed.
Lemma greased_verifyLeaves t t' ctx ctx' creds creds' now : Forall2 node_greased t t' ->
  gc_cipherSuite ctx' = gc_cipherSuite ctx -> gc_groupID ctx' = gc_groupID ctx ->
  (forall li l, getLeaf t li = Ok (Some l) -> is_grease (cred_type (ln_credential l)) = false) ->
  (forall li l', getLeaf t' li = Ok (Some l') -> leafNodeVerifySignature (gc_cipherSuite ctx) (gc_groupID ctx) li l' = Ok true /\ grease_listed l') ->
  (forall ct, is_grease ct = false -> memN ct creds' = memN ct creds) ->
  forall lis sk ek keys, verifyLeaves t ctx creds now lis sk ek = Ok keys -> verifyLeaves t' ctx' creds' now lis sk ek = Ok keys.
Proof.
  intros F Ecs Eid Hng Hs' Sup. induction lis as [|li lis IH]; intros sk ek keys; cbn [verifyLeaves]; [auto|]. intros Hv. apply rbind_ok in Hv as (o & E & Hv).
  destruct (greased_leaves _ _ _ _ F E) as (o' & E' & G). rewrite E'. cbn [rbind]. destruct o as [l|], o' as [l'|]; try contradiction; [|exact (IH _ _ _ Hv)].
  apply rbind_ok in Hv as ([] & Hl & Hv). destruct (verified_listed _ _ Hl) as [Sl Ll]. destruct (Hs' _ _ E') as [Sl' Ll']. cbn [vo_cipherSuite vo_groupID vo_leafIndex] in Sl.
  rewrite (greased_leaf l l' (mkVerifyOptions (gc_cipherSuite ctx) (gc_groupID ctx) li creds sk ek now)); auto; cbn [vo_supportedCreds vo_cipherSuite vo_groupID vo_leafIndex].
  - rewrite Hl. cbn [rbind]. destruct G as [H1 H2 _ _ _ _ _ _]. rewrite H1, H2. exact (IH _ _ _ Hv).
  - exact (Hng _ _ E).
  - apply Sup. exact (Hng _ _ E).
  - now rewrite Ecs, Eid.
Qed.
Theorem greased_trees t t' ctx ctx' now : Forall2 node_greased t t' ->
  gc_cipherSuite ctx' = gc_cipherSuite ctx -> gc_groupID ctx' = gc_groupID ctx ->
  (forall li l, getLeaf t li = Ok (Some l) -> is_grease (cred_type (ln_credential l)) = false) ->
  (forall li l', getLeaf t' li = Ok (Some l') -> leafNodeVerifySignature (gc_cipherSuite ctx) (gc_groupID ctx) li l' = Ok true /\ grease_listed l') ->
  computeRootTreeHash (gc_cipherSuite ctx) t' = Ok (gc_treeHash ctx') -> verifyParentHashes (gc_cipherSuite ctx) t' = Ok true ->
  verifyIntegrity t ctx now = Ok tt -> verifyIntegrity t' ctx' now = Ok tt.
Proof.
  intros F Ecs Eid Hng Hs' Hh Hp H. apply verifyIntegrity_parts in H as (_ & _ & creds & keys & Hc & Hk & H).
  destruct (greased_support _ _ _ F Hc) as (creds' & Hc' & Sup).
  assert (L : lenN t' = lenN t) by (unfold lenN; now rewrite (Forall2_len _ _ _ F)). assert (L' : numLeaves t' = numLeaves t) by (unfold numLeaves; now rewrite L).
  apply verifyIntegrity_parts. rewrite Ecs, L, L'. split; [exact Hh|]. split; [exact Hp|]. exists creds', keys. split; [exact Hc'|]. split.
  - exact (greased_verifyLeaves t t' ctx ctx' creds creds' now F Ecs Eid Hng Hs' Sup _ _ _ _ Hk).
  - exact (greased_parents _ _ F _ _ H).
Qed.
End WithCrypto2.
