(** Members hold well-formed values (C87). *)
From Verif Require Export SpecTypes SpecView.
From Verif Require Import CrashFacts ViewFacts OwnFacts HeapFacts TreeFacts TreeOpFacts JoinFacts ObtainedFacts AcceptFacts GroupFacts FrameFacts CodecFacts.

Definition wf_heap (h : heap) : Prop := Forall wf_node h.
Lemma heap_nodes h t : wf_heap h -> wf_nodes (deref h t).
Proof.
  intros H. unfold wf_nodes, deref. apply Forall_forall. intros o Ho. apply in_map_iff in Ho. destruct Ho as ([p|] & <- & _); [|exact I].
  destruct (nth_error h p) as [n|] eqn:E; [|exact I]. apply nth_error_In in E. unfold wf_heap in H. rewrite Forall_forall in H. exact (H n E).
Qed.
Lemma heap_alloc h n : wf_heap h -> wf_node n -> wf_heap (h ++ [n]).
Proof. intros H Hn. apply Forall_app. split; [exact H|]. constructor; [exact Hn|constructor]. Qed.
Lemma load_heap t : wf_nodes t -> wf_heap (fst (load t)).
Proof.
  unfold load. generalize 0%nat. induction t as [|[n|] t IH]; intros p H; cbn [loadFrom]; [constructor| |]; inversion H as [|x y Hx Hy]; subst.
  - specialize (IH (S p) Hy). destruct (loadFrom (S p) t) as [h t']. cbn [fst] in *. constructor; [exact Hx|exact IH].
  - specialize (IH p Hy). destruct (loadFrom p t) as [h t']. exact IH.
Qed.

(** The leaf that [add] fills has an index that is within its type. *)
Lemma freeSlot_passed {A} (t : list (option A)) fuel : forall li b m, freeSlot fuel t li = Ok (b, m) ->
  (forall j, li <= j < m -> exists a, getN t (nodeIndexOf j) = Ok (Some a) /\ nodeIndexOf j < lenN t) /\
  (nodeIndexOf m < lenN t -> getN t (nodeIndexOf m) = Ok None).
Proof.
  induction fuel as [|fuel IH]; intros li b m H; cbn [freeSlot] in H; destruct (N.leb_spec (lenN t) (nodeIndexOf li)) as [Hl|Hl].
  1,3: apply Ok_inj, pair_equal_spec in H; destruct H as [_ <-]; split; [intros j Hj|intros Hm]; lia.
  - apply rbind_ok in H as ([a|] & E & H); [discriminate|]. apply Ok_inj, pair_equal_spec in H; destruct H as [_ <-]. split; [intros j Hj; lia|auto].
  - apply rbind_ok in H as ([a|] & E & H).
    + apply IH in H as [H1 H2]. split; [|exact H2]. intros j Hj. destruct (N.eq_dec j li) as [->|Hne]; [eauto|]. apply H1. lia.
    + apply Ok_inj, pair_equal_spec in H; destruct H as [_ <-]. split; [intros j Hj; lia|auto].
Qed.
Lemma addSlot_u32 {A} (t t1 : list (option A)) li : addSlot t = Ok (t1, li) -> li <= 2 ^ 31.
Proof.
  unfold addSlot. intros H. apply rbind_ok in H as ([b m] & H & E). apply Ok_inj, pair_equal_spec in E as [_ <-].
  apply freeSlot_passed in H as [H1 H2]. destruct (N.le_gt_cases m (2 ^ 31)) as [Hm|Hm]; [exact Hm|exfalso].
  destruct (H1 (m - 2 ^ 31)) as (a & Ea & La); [lia|].
  assert (E : nodeIndexOf (m - 2 ^ 31) = nodeIndexOf m).
  { rewrite !nodeIndexOf_designated. f_equal. unfold designated. replace m with ((m - 2 ^ 31) + 1 * 2 ^ 31) at 2 by lia. now rewrite N.mod_add. }
  rewrite E in *. rewrite (H2 La) in Ea. discriminate.
Qed.

(** ** Applying proposals *)
Lemma unmerged_heap t li dp h h' : u32 li -> wf_heap h -> addUnmergedH h t li dp = Ok h' -> wf_heap h'.
Proof.
  intros Hl. unfold addUnmergedH. apply (foldM_inv _ wf_heap). intros s x s' _ Hs E.
  apply rbind_ok in E as ([p|] & _ & E); [|apply Ok_inj in E; now subst].
  apply rbind_ok in E as ([l|q] & Ep & E); [discriminate|]. apply Ok_inj in E. subst s'.
  unfold index in Ep. destruct (nth_error s p) as [n|] eqn:En; [|discriminate]. apply Ok_inj in Ep. subst n.
  unfold wf_heap in *. rewrite Forall_forall in *. intros n Hn. apply In_nth_error in Hn as (i & Hi). rewrite upd_nth in Hi.
  destruct (Nat.eqb_spec p i) as [->|Hne]; [|apply nth_error_In in Hi; auto].
  destruct (_ <? _)%nat; [|discriminate]. injection Hi as <-. apply nth_error_In, Hs in En. cbn [wf_node] in *. unfold wf_parentNode in *.
  cbn [addUnmergedLeaf pn_unmergedLeaves]. apply Forall_app. split; [exact En|]. constructor; [exact Hl|constructor].
Qed.
Lemma add_heap h t l h' t' : wf_leafNode l -> wf_heap h -> addH h t l = Ok (h', t') -> wf_heap h'.
Proof.
  intros Hl H E. unfold addH in E. apply rbind_ok in E as ([t1 li] & E1 & E). apply addSlot_u32 in E1. cbv zeta in E.
  apply rbind_ok in E as (dp & _ & E). apply rbind_ok in E as (h1 & Eu & E). apply unmerged_heap in Eu; [|unfold u32; lia|exact H].
  cbn [alloc] in E. apply rbind_ok in E as (t2 & _ & E). apply Ok_inj, pair_equal_spec in E as [<- _]. now apply heap_alloc.
Qed.
Lemma update_heap h t li l h' t' : wf_leafNode l -> wf_heap h -> updateH h t li l = Ok (h', t') -> wf_heap h'.
Proof.
  intros Hl H E. unfold updateH, alloc in E. apply rbind_ok in E as (t1 & _ & E). apply Ok_inj, pair_equal_spec in E as [<- _]. now apply heap_alloc.
Qed.
Lemma apply_heap h t ps ss h' t' : Forall wf_proposal ps -> wf_heap h -> applyH h t ps ss = Ok (h', t') -> wf_heap h'.
Proof.
  intros Hps H E. rewrite Forall_forall in Hps. rewrite applyH_eq in E. apply rbind_ok in E as ([h1 t1] & E1 & E). apply rbind_ok in E as (t2 & _ & E).
  assert (H1 : wf_heap (fst (h1, t1))).
  { revert E1. apply (foldM_inv _ (fun s => wf_heap (fst s))); [|exact H]. intros [ha ta] [i p] [hb tb] Hin Hs Ex. unfold updStepH in Ex. cbn [fst snd] in *.
    assert (Hp : wf_proposal p) by (apply Hps; unfold numbered in Hin; eapply in_combine_r; eauto).
    destruct p; try (apply Ok_inj, pair_equal_spec in Ex as [<- _]; exact Hs). apply rbind_ok in Ex as (s & _ & Ex). eapply update_heap; eauto. }
  change (wf_heap (fst (h', t'))). revert E. apply (foldM_inv _ (fun s => wf_heap (fst s))); [|exact H1].
  intros [ha ta] p [hb tb] Hin Hs Ex. unfold addStepH in Ex. cbn [fst snd] in *. apply Hps in Hin.
  destruct p; try (apply Ok_inj, pair_equal_spec in Ex as [<- _]; exact Hs). eapply add_heap; [|exact Hs|exact Ex]. apply Hin.
Qed.

(** ** Merging an update path *)
Lemma set_nodes t x o t' : wf_nodes t -> wf_optionalNode o -> setN t x o = Ok t' -> wf_nodes t'.
Proof.
  intros H Ho E. apply setN_ok in E as [_ ->]. unfold wf_nodes in *. rewrite Forall_forall in *. intros n Hn. apply In_nth_error in Hn as (i & Hi). rewrite upd_nth in Hi.
  destruct (Nat.eqb_spec (N.to_nat x) i); [|apply nth_error_In in Hi; auto]. destruct (_ <? _)%nat; [|discriminate]. injection Hi as <-. exact Ho.
Qed.
Section WithCrypto.
Context {C : crypto}.
Lemma parentHashes_nodes cs s dp fdp : forall t prev t' prev', wf_nodes t -> mergeParentHashes cs s dp t prev fdp = Ok (t', prev') -> wf_nodes t'.
Proof.
  induction fdp as [|ni fdp IH]; intros t prev t' prev' H E; cbn [mergeParentHashes] in E; [apply Ok_inj, pair_equal_spec in E as [<- _]; exact H|].
  apply rbind_ok in E as ([[l|p]|] & Eg & E); try discriminate. destruct (children ni) as [[lc rc]|]; [|discriminate]. cbv zeta in E.
  apply rbind_ok in E as (th & _ & E). apply rbind_ok in E as (t1 & Es & E). apply rbind_ok in E as (hh & _ & E). eapply IH; [|exact E].
  eapply set_nodes; [exact H| |exact Es]. apply getN_ok, nth_error_In in Eg. unfold wf_nodes in H. rewrite Forall_forall in H. exact (H _ Eg).
Qed.
Lemma merge_nodes cs t li up t' : wf_nodes t -> wf_updatePath up -> mergeUpdatePath cs t li up = Ok t' -> wf_nodes t'.
Proof.
  intros H Hu E. unfold mergeUpdatePath in E. cbv zeta in E. apply rbind_ok in E as (dp & _ & E). apply rbind_ok in E as (t1 & E1 & E). apply rbind_ok in E as (fdp & _ & E).
  apply rbind_ok in E as (? & _ & E). apply rbind_ok in E as (t2 & E2 & E). apply rbind_ok in E as ([t3 prev] & E3 & E). apply rbind_ok in E as (? & _ & E).
  apply (set_nodes t3 (nodeIndexOf li) (Some (NLeaf (up_leafNode up))) t'); [|exact Hu|exact E]. eapply parentHashes_nodes; [|exact E3]. revert E2. apply (foldM_inv _ wf_nodes).
  - intros s a s' _ Hs Ex. refine (set_nodes _ _ _ _ Hs _ Ex). constructor.
  - revert E1. apply (foldM_inv _ wf_nodes); [|exact H]. intros s a s' _ Hs Ex. exact (set_nodes s a None s' Hs I Ex).
Qed.
Lemma merge_heap cs h t li up h' t' : wf_heap h -> wf_updatePath up -> mergeUpdatePathH cs h t li up = Ok (h', t') -> wf_heap h'.
Proof.
  intros H Hu E. unfold mergeUpdatePathH in E. apply rbind_ok in E as (v & Ev & E). apply rbind_ok in E as (dp & _ & E).
  apply merge_nodes in Ev; [|now apply heap_nodes|exact Hu].
  change (wf_heap (fst (h', t'))). revert E. apply (foldM_inv _ (fun s => wf_heap (fst s))); [|exact H].
  intros [ha ta] x [hb tb] _ Hs E. unfold writeBack, alloc in E. cbn [fst snd] in *. apply rbind_ok in E as ([n|] & Eg & E); apply rbind_ok in E as (t1 & _ & E);
    apply Ok_inj, pair_equal_spec in E as [<- _]; [|exact Hs]. apply heap_alloc; [exact Hs|]. apply getN_ok, nth_error_In in Eg. unfold wf_nodes in Ev. rewrite Forall_forall in Ev. exact (Ev _ Eg).
Qed.

(** ** What members hold *)
Record typed (g : group) : Prop := {
  ty_heap : wf_heap (gr_heap g);
  ty_context : wf_groupContext (gr_context g);
  ty_pending : Forall (fun pp => wf_proposal (pp_proposal pp) /\ u32 (pp_sender pp)) (gr_pending g)
}.
Lemma created_typed gid kpp rnd g : wf_keyPackage (kpp_public kpp) -> createGroup gid kpp rnd = Ok g -> typed g.
Proof.
  intros Wk H. unfold createGroup in H. cbv zeta in H. apply rbind_ok in H as ([h t] & Ea & H).
  apply rbind_ok in H as (th & _ & H). apply rbind_ok in H as (d & _ & H). apply rbind_ok in H as (tag & _ & H).
  apply rbind_ok in H as (interim & _ & H). apply rbind_ok in H as (psk & _ & H). apply rbind_ok in H as (ini & _ & H). apply Ok_inj in H. subst g.
  destruct Wk as (Wv & Wc & Wl & _). constructor; cbn [gr_heap gr_context gr_pending]; [|splits; auto; constructor|constructor].
  eapply add_heap; [exact Wl|constructor|exact Ea].
Qed.
Lemma joined_typed w kpp now g : groupFromWelcome w kpp now = Ok g -> typed g.
Proof.
  intros H. apply groupFromWelcome_inv in H. destruct H as (ref & s & Eref & Es & Epsks & H). apply groupFromSecrets_inv in H.
  destruct H as (psk & gi & raw & t & signer & epoch & init & interim & me & priv & Epsk & Egi & Eraw & Et & Esg & Esig & Etag & Ecs & Ev & Eep & Ein & Eint & Eme & -> & priv0 & Ep0 & Ep).
  assert (Hne : t <> []). { intros ->. apply getLeaf_some in Esg. destruct (N.to_nat _); discriminate. }
  destruct (decoded_tree raw t Et Hne) as (_ & Hwf).
  constructor; cbn [gr_heap gr_context gr_pending]; [now apply load_heap| |constructor].
  unfold decryptGroupInfo in Egi. cbv zeta in Egi. apply rbind_ok in Egi as ([key nonce] & _ & Egi). apply rbind_ok in Egi as (rawi & _ & Egi).
  unfold unmarshal in Egi. destruct (getGroupInfo rawi) as [[gi'|?|?|] rest] eqn:Eg; try discriminate.
  apply groupInfo_CAN in Eg as [Wg _]. assert (gi' = gi) as -> by (destruct rest; [now apply Ok_inj in Egi|discriminate]). apply Wg.
Qed.
Lemma heap_typed g h : typed g -> wf_heap h -> typed (withHeap g h).
Proof. intros [H1 H2 H3] H. constructor; assumption. Qed.
Lemma commit_typed g ac now g' r : sane g -> crash_inv g -> typed g -> wf_framedContent (ac_content ac) -> processCommit g ac [] [] now = (g', r) -> typed g'.
Proof.
  intros Sa Ic T Hw H. unfold processCommit in H. destruct (fc_body (ac_content ac)) as [?|?|c] eqn:Eb; try (assert (g' = g) as -> by congruence; exact T).
  destruct (checkCommit _ _ _) as [[ps ss]|?|?|] eqn:Eck; try (assert (g' = g) as -> by congruence; exact T).
  destruct (applyH _ _ _ _) as [[h t]|?|?|] eqn:Ea; try (assert (g' = g) as -> by congruence; exact T).
  destruct (checkCommit_pairs _ _ _ _ _ Eck) as (l & Hc & -> & -> & _). destruct Hw as (_ & _ & Hw). rewrite Eb in Hw. cbn [wf_body] in Hw.
  pose proof (commit_wf _ _ _ _ Ic Hw Hc) as Hps.
  assert (Th : wf_heap h). { eapply apply_heap; [|apply (ty_heap _ T)|exact Ea]. apply Forall_forall. intros p Hp. apply in_map_iff in Hp as (q & <- & Hq). rewrite Forall_forall in Hps. auto. }
  destruct (finishCommit _ _ _ _ _ _ _ _) as [g1|?|?|] eqn:Ef; try (assert (g' = g) as -> by congruence; exact T).
  2: { assert (g' = withHeap g h) as -> by congruence. now apply heap_typed. }
  assert (g1 = g') as -> by congruence. clear H.
  apply finishCommit_ok in Ef as (priv & nh & h1 & t1 & th & cs & priv1 & ctx & interim & psk & ep & ini & Hcp & Hnh & Hpath & Hn & ->).
  apply nextEpoch_ok in Hn as (confirmed & joiner & H1 & H2 & H3 & H4 & H5 & H6 & H7). constructor; cbn [gr_heap gr_context gr_pending]; [| |constructor].
  - destruct Hw as [_ Hw]. destruct (c_path c) as [up|].
    + apply processPath_all in Hpath as (Hm & _). eapply merge_heap; eauto.
    + destruct Hpath as (-> & _). exact Th.
  - subst ctx. destruct (ty_context _ T) as (X1 & X2 & X3 & X4). splits; auto. cbn. unfold u64. apply N.mod_lt. discriminate.
Qed.
Lemma message_typed g raw now g' r : sane g -> crash_inv g -> typed g -> unmarshalAndProcessMessage g raw now = (g', r) -> typed g'.
Proof.
  intros Sa I T H. apply acted_on_or in H. destruct H as [[-> _]|(ac & Hca & Hau & _ & H)]; [exact T|].
  pose proof (proj1 (carries_wf _ _ _ Hca)) as Hw. destruct (fc_body (ac_content ac)) as [d|p|c] eqn:Eb.
  - destruct H as (-> & _). exact T.
  - unfold noData, processProposal in H. rewrite Eb in H. destruct (generateProposalRef _ _) as [ref|?|?|]; cbn [fst snd rmap] in H; try (assert (g' = g) as -> by congruence; exact T).
    apply pair_equal_spec in H. destruct H as [-> _]. destruct T as [T1 T2 T3]. constructor; [exact T1|exact T2|]. cbn [withPending gr_pending].
    apply Forall_app. split; [exact T3|]. constructor; [|constructor]. cbn [pp_proposal pp_sender]. destruct Hw as (_ & Hs & Hw). rewrite Eb in Hw. split; [exact Hw|].
    destruct Hau as (_ & _ & li & leaf & Es & El & _). rewrite Es in *. exact Hs.
  - unfold noData in H. destruct (processCommit g ac [] [] now) as [g1 r1] eqn:E. cbn [fst snd] in H. apply pair_equal_spec in H. destruct H as [-> _]. eapply commit_typed; eauto.
Qed.
Lemma lawful_obtained g : lawful g -> obtained g.
Proof. induction 1; [eapply obtained_created|eapply obtained_joined|eapply obtained_welcome|eapply obtained_message]; eauto. Qed.
Lemma lawful_typed g : lawful g -> typed g.
Proof.
  induction 1 as [? ? ? ? Hk H|? ? ? ? H|g kps rs ri rh rg g' r Hk Ho IH H|g raw now g' r Ho IH H].
  - eapply created_typed; eauto.
  - eapply joined_typed; eauto.
  - unfold createWelcome in H. destruct kps as [|k0 kps0]; [apply pair_equal_spec in H; now destruct H as [<- _]|].
    destruct (applyH _ _ _ _) as [[h t]|?|?|] eqn:Ea; try (apply pair_equal_spec in H; now destruct H as [<- _]).
    assert (E : g' = withHeap g h) by congruence. subst g'. apply heap_typed; [exact IH|]. eapply apply_heap; [|apply (ty_heap _ IH)|exact Ea].
    apply Forall_forall. intros p Hp. apply in_map_iff in Hp as (k & <- & Hin). rewrite Forall_forall in Hk. cbn [wf_proposal]. auto.
  - apply lawful_obtained in Ho. eapply message_typed; eauto; [now apply obtained_sane|now apply obtained_inv].
Qed.
Theorem lawful_holds g : lawful g -> holds_well_formed g.
Proof.
  intros H. pose proof (lawful_typed g H) as [T1 T2 T3]. constructor; auto.
  - now apply heap_nodes.
  - apply obtained_sane. now apply lawful_obtained.
Qed.
Theorem lawful_encodings g : lawful g ->
  (forall e rest, putGroupContext (gr_context g) = Ok e -> getGroupContext (e ++ rest) = (Ok (gr_context g), rest)) /\
  (forall n e rest, In (Some n) (gr_value g) -> putNode n = Ok e -> getNode (e ++ rest) = (Ok n, rest)) /\
  (forall pp e rest, In pp (gr_pending g) -> putProposal (pp_proposal pp) = Ok e -> getProposal (e ++ rest) = (Ok (pp_proposal pp), rest)).
Proof.
  intros H. destruct (lawful_holds g H) as [T X _ P]. unfold wf_nodes in T. rewrite Forall_forall in T, P. splits.
  - intros. now apply groupContext_RT.
  - intros n e rest Hn. apply T in Hn. now apply node_RT.
  - intros pp e rest Hp. apply P in Hp. apply proposal_RT. apply Hp.
Qed.

(** The theorems of ViewFacts, for these members *)
Theorem lawful_same_view g1 g2 j1 j2 : crypto_ok C -> lawful g1 -> lawful g2 -> just_entered g1 -> just_entered g2 ->
  has_joiner g1 j1 -> has_joiner g2 j2 -> gr_epochSecret g1 = gr_epochSecret g2 ->
  exists k1 k2, shaped k1 (gr_value g1) /\ shaped k2 (gr_value g2) /\
    ((gr_context g1 = gr_context g2 /\ gr_value g1 = gr_value g2 /\ j1 = j2) \/ collide (epochQueries g1 j1 k1) (epochQueries g2 j2 k2)).
Proof.
  intros OK L1 L2 E1 E2 J1 J2 E.
  assert (Sh : forall g, lawful g -> just_entered g -> exists k, shaped k (gr_value g)).
  { intros g L En. destruct (sane_shape _ (obtained_sane _ (lawful_obtained _ L))) as [Hn|Hs]; [|exact Hs].
    destruct (entered_facts g En) as (_ & _ & _ & Ht). rewrite Hn in Ht. vm_compute in Ht. discriminate. }
  destruct (Sh g1 L1 E1) as (k1 & S1), (Sh g2 L2 E2) as (k2 & S2). exists k1, k2. splits; auto.
  destruct (lawful_holds _ L1) as [W1 X1 _ _], (lawful_holds _ L2) as [W2 X2 _ _]. now apply same_secret_same_view.
Qed.
Theorem lawful_same_past g1 raw1 now1 ac1 c1 g1' s1 g2 raw2 now2 ac2 c2 g2' s2 : crypto_ok C ->
  lawful g1 -> accepts_commit g1 raw1 now1 ac1 c1 g1' -> has_commit_secret g1 g1' s1 ->
  lawful g2 -> accepts_commit g2 raw2 now2 ac2 c2 g2' -> has_commit_secret g2 g2' s2 -> gr_epochSecret g1' = gr_epochSecret g2' ->
  (untagged (entry ac1) = untagged (entry ac2) /\ s1 = s2 /\
   gr_epochSecret g1 = gr_epochSecret g2 /\ gr_interimTranscriptHash g1 = gr_interimTranscriptHash g2) \/
  collide (commitQueries g1 g1' s1 ac1) (commitQueries g2 g2' s2 ac2).
Proof.
  intros OK L1 A1 J1 L2 A2 J2 E.
  assert (X1 : lawful g1'). { destruct A1 as (? & ? & A1). eapply lawful_message; [exact L1|]. eauto. }
  assert (X2 : lawful g2'). { destruct A2 as (? & ? & A2). eapply lawful_message; [exact L2|]. eauto. }
  eapply same_secret_same_past; eauto using lawful_obtained; apply lawful_holds; assumption.
Qed.
End WithCrypto.
