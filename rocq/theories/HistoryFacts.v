(** The members of a group agree, whatever they did. *)
From Coq Require Import Lia Permutation.
From Verif Require Export SpecHistory WelcomeFacts FrameFacts.

(** ** Trees without parent nodes *)
Lemma leaves_only_grown t : leaves_only t -> leaves_only (grown t).
Proof.
  intros H i p E. unfold grown in E. destruct (Nat.lt_ge_cases i (length t)) as [Hl|Hl].
  - rewrite nth_error_app1 in E by assumption. now apply (H i p).
  - rewrite nth_error_app2 in E by assumption. apply nth_error_In, repeat_spec in E. discriminate.
Qed.
Lemma leaves_only_added k t t' li l : shaped k t -> leaves_only t -> added k t t' li l -> leaves_only t'.
Proof.
  intros Sh H (Sh' & Hli & H1 & H2 & H3) i q E.
  pose proof (shaped_full _ _ Sh') as [F1 F2]. assert (Hi : N.of_nat i < lenN t'). { unfold lenN. assert (i < length t')%nat by (apply nth_error_Some; congruence). lia. }
  rewrite F2 in Hi. destruct (number_onto k (N.of_nat i) Hi) as (p & Hp & Hn).
  assert (Ep : at_path k t' p = Some (NParent q)). { unfold at_path. rewrite Hn, Nat2N.id. now rewrite E. }
  assert (No : forall r, at_path k t p <> Some (NParent r)).
  { intros r Er. unfold at_path in Er. destruct (nth_error t (N.to_nat (number k p))) eqn:En; [|discriminate]. subst. eapply H; eauto. }
  destruct (path_eq_dec p (leafPath k li)) as [->|Hne]; [congruence|].
  destruct (in_dec path_eq_dec p (proper_ancestors (leafPath k li))) as [Ha|Ha]; rewrite <- above_In in Ha.
  - rewrite (H2 p Hp Ha) in Ep. destruct (at_path k t p) as [[x|x]|]; cbn in Ep; try discriminate. now apply (No x).
  - rewrite (H3 p Hp Hne Ha) in Ep. now apply (No q).
Qed.
Lemma leaves_only_add k t l t' : shaped k t -> leaves_only t -> vadd t l = Ok t' -> leaves_only t'.
Proof.
  intros Sh H E. destruct (add_shape t l t' (or_intror (ex_intro _ k Sh)) E) as (k' & t0 & li & _ & Ht0 & S0 & A).
  apply (leaves_only_added k' t0 t' li l S0); [|assumption]. destruct Ht0 as [->|[-> _]]; [assumption|now apply leaves_only_grown].
Qed.
Lemma leaves_only_adds kps : forall t t', well_shaped t -> t <> [] -> leaves_only t -> foldM addStep t (map PAdd kps) = Ok t' -> leaves_only t'.
Proof.
  induction kps as [|p kps IH]; intros t t' W Hne H E; cbn [map foldM] in E; [apply Ok_inj in E; now subst|].
  apply rbind_ok in E. destruct E as (t1 & E1 & E). cbn [addStep] in E1. destruct W as [|[k Sh]]; [contradiction|].
  destruct (add_shape t _ t1 (or_intror (ex_intro _ k Sh)) E1) as (k' & t0 & li & _ & _ & _ & A).
  apply (IH t1 t'); auto.
  - right. exists k'. apply A.
  - intros ->. destruct A as (S1 & _). destruct (shaped_full _ _ S1) as [_ X]. unfold lenN in X. cbn in X. pose proof (leaf_count_pos k'). rewrite node_leaf_count in X. lia.
  - eapply leaves_only_add; eauto.
Qed.

Section WithCrypto.
Context {C : crypto}.

(** ** The members of an epoch *)
Definition member_of (e : epochData) (g : group) : Prop := in_epoch g e /\ in_order g.

(** The same member with a heap that has grown *)
Lemma withHeap_member g h : same_but_unmerged (gr_value g) (gr_value (withHeap g h)) -> leaves_only (gr_value g) ->
  in_order g -> gr_value (withHeap g h) = gr_value g /\ in_order (withHeap g h).
Proof.
  intros H L [H1 H2 [[Pr1 Pr2] H3] (l & alg & Hl & Ha & Hs) (k & St)]. pose proof (same_but_unmerged_leaves _ _ L H) as E. split; [assumption|].
  constructor.
  - exact H1.
  - exact H2.
  - split; [|exact H3]. split; [|exact Pr2]. intros p Hp. cbn [withHeap gr_heap gr_tree] in *.
    apply In_nth_error in Hp. destruct Hp as (i & Hi).
    assert (X : nth_error (gr_value g) i = Some (nth_error (gr_heap g) p)) by (unfold gr_value, deref; rewrite nth_error_map, Hi; reflexivity).
    assert (Y : nth_error (gr_value (withHeap g h)) i = Some (nth_error h p)) by (unfold gr_value, deref; cbn [withHeap gr_heap gr_tree]; rewrite nth_error_map, Hi; reflexivity).
    rewrite E, X in Y. injection Y as Y. apply nth_error_In in Hi. apply Pr1 in Hi. apply nth_error_Some in Hi. apply nth_error_Some. congruence.
  - exists l, alg. splits; auto. unfold own_leaf. rewrite E. exact Hl.
  - exists k. rewrite E. exact St.
Qed.

(** ** Founding a group *)
Lemma first_leaf l : addH [] [None] l = Ok ([NLeaf l], [Some 0%nat]).
Proof. reflexivity. Qed.

Lemma single_shaped l : shaped 0 [Some (NLeaf l)].
Proof.
  split; [split; [unfold fits; lia|reflexivity]|]. intros p n Hp Hn. destruct p as [|b p]; [|unfold in_tree in Hp; cbn in Hp; lia].
  unfold at_path in Hn. cbn in Hn. injection Hn as <-. reflexivity.
Qed.
Lemma single_at l p n : in_tree 0 p -> at_path 0 [Some (NLeaf l)] p = Some n -> p = [] /\ n = NLeaf l.
Proof.
  intros Hp Hn. destruct p as [|b p]; [|unfold in_tree in Hp; cbn in Hp; lia]. unfold at_path in Hn. cbn in Hn. injection Hn as <-. auto.
Qed.
Lemma single_leaf l li x : leaf_at [Some (NLeaf l)] li = Some x -> li = 0 /\ x = l.
Proof.
  unfold leaf_at. intros H. destruct (N.eq_dec li 0) as [->|Hne].
  - cbn in H. injection H as <-. auto.
  - destruct (N.to_nat (2 * li)) as [|i] eqn:E; [lia|]. cbn in H. destruct i; discriminate.
Qed.

Lemma single_sound cs gid l : newcomer cs l -> In (cred_type (ln_credential l)) (caps_credentials (ln_capabilities l)) ->
  sound_tree cs gid 0 [Some (NLeaf l)].
Proof.
  intros (Wl & Sl & Sg & Cl) Hs. constructor.
  - apply single_shaped.
  - exists 0. split; [discriminate|]. intros j Hj. lia.
  - constructor; [exact Wl|constructor].
  - intros li x Hx. apply single_leaf in Hx. destruct Hx as [-> ->]. apply Sg.
  - constructor; [exact Cl|constructor].
  - intros a b [<-|[]] [<-|[]]. exact Hs.
  - constructor; [intros []|constructor].
  - constructor; [intros []|constructor].
  - intros p n Hp Hn. apply single_at in Hn; [|assumption]. destruct Hn; discriminate.
  - intros p n li Hp Hn. apply single_at in Hn; [|assumption]. destruct Hn; discriminate.
  - intros p n li Hp Hn. apply single_at in Hn; [|assumption]. destruct Hn; discriminate.
Qed.

Lemma founder_in_order gid kpp rnd g : founder kpp -> createGroup gid kpp rnd = Ok g ->
  in_order g /\ leaves_only (gr_value g) /\ gr_value g = [Some (NLeaf (kp_leafNode (kpp_public kpp)))] /\ gr_pending g = [].
Proof.
  intros (Wk & (d & Hd & _ & _ & Hsk) & Hn & Hs) H. unfold createGroup in H. cbv zeta in H. rewrite first_leaf in H. cbn [rbind] in H.
  apply rbind_ok in H. destruct H as (th & Hth & H). apply rbind_ok in H. destruct H as (d' & Hd' & H). apply rbind_ok in H. destruct H as (tag & Htag & H).
  apply rbind_ok in H. destruct H as (interim & Hint & H). apply rbind_ok in H. destruct H as (psk & Hpsk & H). apply rbind_ok in H. destruct H as (ini & Hini & H). apply Ok_inj in H. subst g.
  set (l := kp_leafNode (kpp_public kpp)) in *. unfold gr_value. cbn [gr_heap gr_tree gr_pending].
  change (deref [NLeaf l] [Some 0%nat]) with [Some (NLeaf l)]. splits; auto.
  - constructor; cbn [gr_context gr_myLeafIndex].
    + destruct Wk as (W1 & W2 & _). unfold wf_groupContext. cbn [gc_version gc_cipherSuite gc_epoch gc_extensions]. splits; auto. reflexivity.
    + reflexivity.
    + split; [|reflexivity]. split; cbn [gr_heap gr_tree].
      * intros p [E|[]]. injection E as <-. cbn. lia.
      * intros [|i] [|j] p; cbn; try (destruct i; discriminate); try (destruct j; discriminate). reflexivity.
    + exists l, (sd_sig d). splits; auto; [reflexivity|]. cbn [gr_context gc_cipherSuite]. now rewrite Hd.
    + exists 0%nat. unfold gr_value. cbn [gr_heap gr_tree gr_context gc_cipherSuite gc_groupID]. apply single_sound; assumption.
  - intros [|i] p; cbn; [discriminate|]. destruct i; discriminate.
Qed.

(** ** The epoch after a commit *)
Lemma go_together_keys t kps : go_together t (map kp_leafNode kps) -> NoDup (map (fun k => ln_signatureKey (kp_leafNode k)) kps).
Proof. intros (_ & H & _). apply NoDup_app_inv in H. destruct H as (_ & H & _). now rewrite map_map in H. Qed.

Lemma epoch_in_order g kps rs ri rh rg w raw e sg tag joiner : crypto_ok C -> in_order g -> may_join g kps ->
  welcoming g kps rs ri rh rg w raw e sg tag joiner ->
  wf_groupContext (ed_context e) /\ gc_cipherSuite (ed_context e) = gc_cipherSuite (gr_context g) /\
  (exists k', sound_tree (gc_cipherSuite (ed_context e)) (gc_groupID (ed_context e)) k' (ed_tree e)) /\
  (forall li l, leaf_at (gr_value g) li = Some l -> leaf_at (ed_tree e) li = Some l) /\
  Permutation (leafNodesOf (ed_tree e)) (leafNodesOf (gr_value g) ++ map kp_leafNode kps) /\
  (leaves_only (gr_value g) -> leaves_only (ed_tree e)).
Proof.
  intros HC [Hctxwf _ _ _ (k & St)] (Hwk & Hadd & Hnew & Hgo) W.
  destruct W as [Wt _ (th & confirmed & Hth & Hconf & Hctx & Hint) _ _ _ _ _ _ _]. rewrite adds_only in Wt.
  destruct (sound_adds _ _ kps HC k _ _ St Hnew Hgo Wt) as ((k' & St') & PL & _ & Keep & Has).
  splits; auto.
  - destruct Hctxwf as (V1 & V2 & V3 & V4). rewrite Hctx. unfold wf_groupContext, nextContext. cbn [gc_version gc_cipherSuite gc_epoch gc_extensions]. splits; auto. unfold u64. apply N.mod_lt. discriminate.
  - rewrite Hctx. reflexivity.
  - exists k'. rewrite Hctx. exact St'.
  - intros L. pose proof (st_shaped _ _ _ _ St) as Sh. eapply leaves_only_adds; [right; exists k; exact Sh| |exact L|exact Wt].
    intros E. rewrite E in Sh. destruct (shaped_full _ _ Sh) as [_ X]. unfold lenN in X. cbn in X. pose proof (leaf_count_pos k). rewrite node_leaf_count in X. lia.
Qed.

Theorem commit_received g kps rs ri rh rg w raw e sg tag joiner g2 now : crypto_ok C -> in_order g -> may_join g kps -> kps <> [] -> lenN rg = 4 ->
  welcoming g kps rs ri rh rg w raw e sg tag joiner -> agree g g2 -> in_order g2 ->
  exists g2', unmarshalAndProcessMessage g2 raw now = (g2', Ok None) /\ in_epoch g2' e /\ in_order g2' /\
    gr_myLeafIndex g2' = gr_myLeafIndex g2 /\ gr_pending g2' = [].
Proof.
  intros HC Ho Hm Hne Hg W Hag Ho2.
  destruct (epoch_in_order _ _ _ _ _ _ _ _ _ _ _ _ HC Ho Hm W) as (Hwf & Hcs & St & Keep & _ & _).
  destruct Hm as (Hwk & Hadd & Hnew & Hgo).
  destruct (commit_processed g kps rs ri rh rg w raw e sg tag joiner g2 now) as (g2' & Hp & He & Hc & Hi & Hsp & Hpend); auto; try apply Ho; try apply Ho2.
  - now apply (go_together_keys (gr_value g)).
  - exists g2'. splits; auto. destruct Ho2 as [_ Hidx _ (l & alg & Hl & Ha & Hs) _]. destruct Hag as (A1 & A2 & _).
    destruct He as (E1 & E2 & _). constructor.
    + now rewrite E2.
    + now rewrite Hi.
    + exact Hc.
    + exists l, alg. splits.
      * apply own_leaf_at. rewrite Hi, E1. apply Keep. rewrite <- A2. now apply own_leaf_at.
      * rewrite E2, Hcs, <- A1. exact Ha.
      * now rewrite Hsp.
    + rewrite E1, E2. exact St.
Qed.

Lemma agree_refl g : agree g g.
Proof. unfold agree. splits; reflexivity. Qed.

(** ** Histories *)
Definition together (e : epochData) (gs : list group) : Prop := leaves_only (ed_tree e) /\ Forall (member_of e) gs.

Definition epochOf (g : group) : epochData :=
  mkEpochData (gr_value g) (gr_context g) (gr_interimTranscriptHash g) (gr_pskSecret g) (gr_epochSecret g) (gr_initSecret g).
Lemma in_epochOf g : in_epoch g (epochOf g).
Proof. unfold in_epoch, epochOf. cbn. splits; reflexivity. Qed.

Lemma withHeap_epoch g h e : in_epoch g e -> gr_value (withHeap g h) = gr_value g -> in_epoch (withHeap g h) e.
Proof. intros (A & B & D & E & F & G) H. unfold in_epoch. rewrite H. cbn [withHeap gr_context gr_interimTranscriptHash gr_pskSecret gr_epochSecret gr_initSecret]. splits; assumption. Qed.

Lemma frame_member e g h : leaves_only (ed_tree e) -> member_of e g -> same_but_unmerged (gr_value g) (gr_value (withHeap g h)) ->
  member_of e (withHeap g h).
Proof.
  intros L [He Ho] H. assert (L' : leaves_only (gr_value g)) by (destruct He as (-> & _); exact L).
  destruct (withHeap_member g h H L' Ho) as [E Ho']. split; [|assumption]. now apply withHeap_epoch.
Qed.

Lemma Forall_mid {A} (P : A -> Prop) before x after : Forall P (before ++ x :: after) <-> Forall P before /\ P x /\ Forall P after.
Proof. rewrite Forall_app, Forall_cons_iff. tauto. Qed.

(** What the members make of a successful CreateWelcome *)
Theorem welcome_round e before g after kpps rs ri rh rg g1 w raw : crypto_ok C -> together e (before ++ g :: after) -> lenN rg = 4 ->
  may_join g (map kpp_public kpps) -> Forall holds_private_keys kpps ->
  createWelcome g (map kpp_public kpps) rs ri rh rg = (g1, Ok (w, raw)) -> NoDup (welcomeNewMembers w) ->
  exists e', leaves_only (ed_tree e') /\
    (forall m now, In m (before ++ g1 :: after) -> exists m', unmarshalAndProcessMessage m raw now = (m', Ok None) /\ member_of e' m' /\ gr_myLeafIndex m' = gr_myLeafIndex m) /\
    (forall kpp now, In kpp kpps -> later_than_1970 now -> all_current g (map kpp_public kpps) now ->
      exists j, groupFromWelcome w kpp now = Ok j /\ member_of e' j /\ leaf_at (gr_value j) (gr_myLeafIndex j) = Some (kp_leafNode (kpp_public kpp))).
Proof.
  intros HC [L F] Hg Hm Hk H Nd. apply Forall_mid in F. destruct F as (F1 & [He Ho] & F2).
  pose proof (createWelcome_frame _ _ _ _ _ _ _ _ (proj1 (io_consistent _ Ho)) H) as (h & -> & Hsame).
  destruct (createWelcome_parts _ _ _ _ _ _ _ _ _ HC (proj1 (io_consistent _ Ho)) H) as (Hne & _ & e' & sg & tag & joiner & W).
  pose proof (epoch_in_order _ _ _ _ _ _ _ _ _ _ _ _ HC Ho Hm W) as (_ & _ & _ & _ & _ & L').
  exists e'. splits.
  - apply L'. destruct He as (-> & _). exact L.
  - intros m now Hin.
    assert (Hmem : member_of e m).
    { apply in_app_iff in Hin. rewrite Forall_forall in F1, F2. destruct Hin as [Hin|[<-|Hin]]; auto. apply frame_member; auto. now split. }
    destruct Hmem as [Hem Hom].
    destruct (commit_received g _ rs ri rh rg w raw e' sg tag joiner m now HC Ho Hm Hne Hg W (in_epoch_agree _ _ _ He Hem) Hom) as (m' & Hp & He' & Ho' & Hi & _).
    exists m'. splits; auto. now split.
  - intros kpp now Hin Hnow Hcur. rewrite Forall_forall in Hk.
    destruct (welcome_joined g _ rs ri rh rg w raw e' sg tag joiner kpp now HC Ho Hm W Nd (in_map _ _ _ Hin) (Hk _ Hin) Hnow Hcur) as (_ & _ & j & Hj & He' & Ho' & Hl & _).
    exists j. splits; auto. now split.
Qed.

Lemma message_heard e gs g data rnd rg raw m now : crypto_ok C -> together e gs -> In g gs -> In m gs -> lenN rg = 4 ->
  createApplicationMessage g data rnd rg = Ok raw -> unmarshalAndProcessMessage m raw now = (m, Ok (Some data)).
Proof.
  intros HC [_ F] Hg Hm Hr H. rewrite Forall_forall in F. destruct (F _ Hg) as [He Ho]. destruct (F _ Hm) as [Hem _].
  apply (application_delivered g m data rnd rg raw now HC); auto; try apply Ho. destruct (in_epoch_agree _ _ _ He Hem) as (A1 & A2 & _ & _ & A5 & _). repeat split; assumption.
Qed.

Lemma Forall2_right {A B} (R : A -> B -> Prop) (P : B -> Prop) l l' : Forall2 R l l' -> (forall x y, In x l -> R x y -> P y) -> Forall P l'.
Proof.
  induction 1 as [|x y l l' Hxy _ IH]; intros H; constructor; [eapply H; eauto; now left|]. apply IH. intros a b Ha. apply H. now right.
Qed.

Theorem conversation_together gs : crypto_ok C -> conversation gs -> exists e, together e gs.
Proof.
  intros HC H. induction H as [gid kpp rnd g Hf Hc|before g after kpps rs ri rh rg g1 w raw members joiners _ (e & T) Hg Hm Hk Hc Nd Hrec Hj
    |members g data rnd rg raw members' _ (e & T) Hin Hg Hc Hrec|before g after kps rs ri rh rg g1 r _ (e & L & F) Hc|before g after raw now g1 er _ (e & L & F) Hc].
  - destruct (founder_in_order gid kpp rnd g Hf Hc) as (Ho & L & _). exists (epochOf g). split; [exact L|]. constructor; [|constructor]. split; [apply in_epochOf|assumption].
  - destruct (welcome_round e before g after kpps rs ri rh rg g1 w raw HC T Hg Hm Hk Hc Nd) as (e' & L' & R1 & R2). exists e'. split; [assumption|]. apply Forall_app. split.
    + apply (Forall2_right _ _ _ _ Hrec). intros m m' Hin (now & ->). destruct (R1 m now Hin) as (m' & -> & Hm' & _). exact Hm'.
    + apply (Forall2_right _ _ _ _ Hj). intros kpp j Hin (now & Hn & Hcur & Hres). destruct (R2 kpp now Hin Hn Hcur) as (j' & E & Hj' & _). congruence.
  - exists e. split; [apply T|]. apply (Forall2_right _ _ _ _ Hrec). intros m m' Hm (now & ->).
    rewrite (message_heard e members g data rnd rg raw m now HC T Hin Hm Hg Hc). destruct T as [_ F]. rewrite Forall_forall in F. now apply F.
  - exists e. split; [assumption|]. apply Forall_mid in F. apply Forall_mid. destruct F as (F1 & [He Ho] & F2). splits; auto.
    destruct (createWelcome_frame _ _ _ _ _ _ _ _ (proj1 (io_consistent _ Ho)) Hc) as (h & -> & Hs). apply frame_member; auto. now split.
  - exists e. split; [assumption|]. apply Forall_mid in F. apply Forall_mid. destruct F as (F1 & [He Ho] & F2). splits; auto.
    destruct (message_error _ _ _ _ _ (proj1 (io_consistent _ Ho)) Hc) as (h & -> & Hs). apply frame_member; auto. now split.
Qed.

(** ** Generated key packages *)
Lemma cipherSuite_u16 cs d : cipherSuiteDescriptions cs = Some d -> u16 cs.
Proof.
  unfold cipherSuiteDescriptions. intros H. repeat match type of H with context [match ?x with _ => _ end] => destruct x; try discriminate end; reflexivity.
Qed.
Lemma generated_facts cs kpp : crypto_ok C -> generated cs kpp ->
  let k := kpp_public kpp in
  wf_keyPackage k /\ kp_cipherSuite k = cs /\ holds_private_keys kpp /\ newcomer cs (kp_leafNode k) /\ basic_leaf (kp_leafNode k) /\
  (forall ctx, gc_version ctx = 1 -> gc_cipherSuite ctx = cs -> addable ctx k).
Proof.
  intros HC [(cred & t0 & t1 & r1 & r2 & r3 & r4 & r5 & Ht & Hcc & H) Hne].
  assert (Hcs : u16 cs).
  { apply generated_inv in H. destruct H as (d & _ & _ & _ & _ & _ & _ & _ & _ & _ & _ & Hd & _). apply cipherSuite_u16 in Hd. exact Hd. }
  assert (Hw : wf_credential cred) by (left; split; assumption).
  destruct (generated_valid cs cred t0 t1 r1 r2 r3 r4 r5 kpp HC Hcs Hw H) as (G1 & G2 & G3 & G4 & G5 & G6 & G7 & G8 & G9 & _). cbv zeta.
  splits; auto.
  - splits; auto.
    + apply G1.
    + apply generated_inv in H. destruct H as (d & ip & iv & ep & ev & sp & sv & tbs & s1 & tbs2 & s2 & _ & _ & _ & _ & _ & _ & _ & _ & ->). reflexivity.
    + split; [rewrite G6; constructor; [intros []|constructor]|]. rewrite G5. intros e [].
  - split; [congruence|assumption].
Qed.

Lemma generated_founder cs kpp : crypto_ok C -> generated cs kpp -> founder kpp.
Proof.
  intros HC H. destruct (generated_facts cs kpp HC H) as (G1 & G2 & G3 & G4 & [G5 G6] & _). unfold founder. rewrite G2. splits; auto.
  rewrite G5, G6. now left.
Qed.

Lemma generated_may_join g kpps : crypto_ok C -> Forall (generated (gc_cipherSuite (gr_context g))) kpps -> gc_version (gr_context g) = 1 ->
  Forall basic_leaf (leafNodesOf (gr_value g)) ->
  NoDup (map ln_signatureKey (leafNodesOf (gr_value g)) ++ map (fun p => ln_signatureKey (kp_leafNode (kpp_public p))) kpps) ->
  NoDup (encryptionKeysOf (gr_value g) ++ map (fun p => ln_encryptionKey (kp_leafNode (kpp_public p))) kpps) ->
  may_join g (map kpp_public kpps) /\ Forall holds_private_keys kpps.
Proof.
  intros HC Hk Hv Hb Ns Ne.
  assert (F : forall P : keyPairPackage -> Prop, (forall kpp, generated (gc_cipherSuite (gr_context g)) kpp -> P kpp) -> Forall P kpps).
  { intros P HP. eapply Forall_impl; [|exact Hk]. exact HP. }
  split; [|apply F; intros kpp H; now apply (generated_facts _ _ HC H)]. splits.
  - apply Forall_map, F. intros kpp H. now apply (generated_facts _ _ HC H).
  - apply Forall_map, F. intros kpp H. now apply (generated_facts _ _ HC H).
  - apply Forall_map, F. intros kpp H. now apply (generated_facts _ _ HC H).
  - rewrite map_map.
    assert (Hall : forall l, In l (leafNodesOf (gr_value g) ++ map (fun p => kp_leafNode (kpp_public p)) kpps) -> basic_leaf l).
    { apply Forall_forall. apply Forall_app. split; [assumption|]. apply Forall_map, F. intros kpp H. now apply (generated_facts _ _ HC H). }
    splits.
    + intros a b Ha Hb'. destruct (Hall _ Ha) as [-> _]. destruct (Hall _ Hb') as [_ ->]. now left.
    + rewrite map_map. exact Ns.
    + rewrite map_map. exact Ne.
Qed.
End WithCrypto.
