(** Facts about proposal lists. *)
From Verif Require Export ModelFacts Proposal SpecProposal.

Lemma memN_negb x l : negb (memN x l) = true <-> ~ In x l.
Proof. rewrite negb_true_iff. apply memN_false. Qed.
Lemma memB_negb x l : negb (memB x l) = true <-> ~ In x l.
Proof. rewrite negb_true_iff. apply memB_false. Qed.

(** The rule relative to the sets of what was seen already *)
Definition rule_from (count committer : N) (s : seen) (l : list (proposal * N)) : Prop :=
  (NoDup (addedKeys l) /\ forall k, In k (addedKeys l) -> ~ In k (sn_add s)) /\
  (NoDup (changedLeaves l) /\ (forall k, In k (changedLeaves l) -> ~ In k (sn_updateOrRemove s)) /\ ~ In committer (changedLeaves l)) /\
  (exists es, Forall2 (fun id e => putPskID id = Ok e) (pskIds l) es /\ NoDup es /\ forall e, In e es -> ~ In e (sn_psk s)) /\
  ((if sn_gce s then 1 else 0) + length (extensionProposals l) <= 1)%nat /\
  (forall r x, In (PReInit r, x) l -> count <= 1) /\
  (forall k x, ~ In (PExternalInit k, x) l).

Lemma verifyProposal_ok count committer s p s' : verifyProposal count committer s p = Ok s' ->
  forall l, rule_from count committer s (p :: l) <-> rule_from count committer s' l.
Proof.
  destruct p as [p snd]. intros H l. unfold rule_from.
  destruct p; cbn [verifyProposal] in H; rinv; subst; cbn [sn_add sn_updateOrRemove sn_psk sn_gce addedKeys changedLeaves pskIds extensionProposals
     flat_map fst app length In] in *.
  - apply memB_negb in E. split.
    + intros ((H1 & H2) & H3 & H4 & H5 & H6 & H7). inversion H1; subst. repeat split; try tauto; auto.
      * intros k Hk [<-|Hk']; [auto|apply (H2 k); auto].
      * intros. eapply H6; eauto.
      * intros k x Hx. apply (H7 k x). auto.
    + intros ((H1 & H2) & H3 & H4 & H5 & H6 & H7). repeat split; try tauto; auto.
      * constructor; auto. intros Hin. apply (H2 _ Hin). auto.
      * intros k [<-|Hk]; auto. intros Hin. apply (H2 _ Hk). auto.
      * intros r x [Hx|Hx]; [discriminate|]. eauto.
      * intros k x [Hx|Hx]; [discriminate|]. eapply H7; eauto.
  - apply memN_negb in E0. apply negb_true_iff, N.eqb_neq in E. split.
    + intros (H3 & (H1 & H2 & H8) & H4 & H5 & H6 & H7). inversion H1; subst. repeat split; try tauto; auto.
      * intros k Hk [<-|Hk']; [auto|apply (H2 k); auto].
      * intros. eapply H6; eauto.
      * intros k x Hx. apply (H7 k x). auto.
    + intros (H3 & (H1 & H2 & H8) & H4 & H5 & H6 & H7). repeat split; try tauto; auto.
      * constructor; auto. intros Hin. apply (H2 _ Hin). auto.
      * intros k [<-|Hk]; auto. intros Hin. apply (H2 _ Hk). auto.
      * intros r x [Hx|Hx]; [discriminate|]. eauto.
      * intros k x [Hx|Hx]; [discriminate|]. eapply H7; eauto.
  - apply memN_negb in E0. apply negb_true_iff, N.eqb_neq in E. split.
    + intros (H3 & (H1 & H2 & H8) & H4 & H5 & H6 & H7). inversion H1; subst. repeat split; try tauto; auto.
      * intros k Hk [<-|Hk']; [auto|apply (H2 k); auto].
      * intros. eapply H6; eauto.
      * intros k x Hx. apply (H7 k x). auto.
    + intros (H3 & (H1 & H2 & H8) & H4 & H5 & H6 & H7). repeat split; try tauto; auto.
      * constructor; auto. intros Hin. apply (H2 _ Hin). auto.
      * intros k [<-|Hk]; auto. intros Hin. apply (H2 _ Hk). auto.
      * intros r x [Hx|Hx]; [discriminate|]. eauto.
      * intros k x [Hx|Hx]; [discriminate|]. eapply H7; eauto.
  - apply memB_negb in E0. split.
    + intros (H3 & H4 & (es & H1 & H2 & H8) & H5 & H6 & H7). inversion H1; subst. assert (y = v) by congruence. subst y.
      inversion H2; subst. split; [tauto|]. split; [tauto|]. split; [|split; [tauto|split]].
      * exists l'. split; [auto|]. split; [auto|]. intros e He [<-|Hin]; [auto|apply (H8 e); cbn; auto].
      * intros. eapply H6; eauto.
      * intros k x Hx. apply (H7 k x). auto.
    + intros (H3 & H4 & (es & H1 & H2 & H8) & H5 & H6 & H7). split; [tauto|]. split; [tauto|]. split; [|split; [tauto|split]].
      * exists (v :: es). split; [constructor; auto|]. split.
        { constructor; auto. intros Hin. apply (H8 _ Hin). cbn. auto. }
        intros e [<-|He]; auto. intros Hin. apply (H8 _ He). cbn. auto.
      * intros r x [Hx|Hx]; [discriminate|]. eauto.
      * intros k x [Hx|Hx]; [discriminate|]. eapply H7; eauto.
  - assert (Hc : count <= 1) by lia. split.
    + intros (H3 & H4 & H1 & H5 & H6 & H7). repeat split; try tauto; auto. intros k x Hx. apply (H7 k x). auto.
    + intros (H3 & H4 & H1 & H5 & H6 & H7). repeat split; try tauto; auto.
      intros k x [Hx|Hx]; [discriminate|]. eapply H7; eauto.
  - apply negb_true_iff in E. rewrite E. split.
    + intros (H3 & H4 & H1 & H5 & H6 & H7). repeat split; try tauto; auto; try lia.
      * intros. eapply H6; eauto.
      * intros k x Hx. apply (H7 k x). auto.
    + intros (H3 & H4 & H1 & H5 & H6 & H7). repeat split; try tauto; auto; try lia.
      * intros r x [Hx|Hx]; [discriminate|]. eauto.
      * intros k x [Hx|Hx]; [discriminate|]. eapply H7; eauto.
Qed.

Lemma verifyProposal_rule count committer s p l : rule_from count committer s (p :: l) ->
  exists s', verifyProposal count committer s p = Ok s'.
Proof.
  destruct p as [p snd]. unfold rule_from.
  destruct p; cbn [verifyProposal addedKeys changedLeaves pskIds extensionProposals flat_map fst app length In];
    intros (H1 & H2 & H3 & H4 & H5 & H6).
  - destruct H1 as [H1 H1']. rewrite (proj2 (memB_negb _ _)); [cbn; eauto|]. apply H1'. auto.
  - destruct H2 as (H2 & H2' & H2''). rewrite (proj2 (memN_negb _ _)).
    + destruct (N.eqb_spec snd committer); [subst; exfalso; apply H2''; auto|cbn; eauto].
    + apply H2'. auto.
  - destruct H2 as (H2 & H2' & H2''). rewrite (proj2 (memN_negb _ _)).
    + destruct (N.eqb_spec removed committer); [subst; exfalso; apply H2''; auto|cbn; eauto].
    + apply H2'. auto.
  - destruct H3 as (es & F & ND & Hs). inversion F as [|? e ? ? He]; subst. rewrite He. cbn.
    rewrite (proj2 (memB_negb _ _)); [cbn; eauto|]. apply Hs. cbn. auto.
  - assert (count <= 1) by (eapply H5; eauto). destruct (N.ltb_spec 1 count); [lia|cbn; eauto].
  - exfalso. eapply H6. eauto.
  - destruct (sn_gce s); [lia|cbn; eauto].
Qed.

Lemma foldM_verifyProposal count committer l : forall s,
  is_ok (foldM (verifyProposal count committer) s l) = true <-> rule_from count committer s l.
Proof.
  induction l as [|p l IH]; intros s; cbn [foldM].
  - split; [|reflexivity]. intros _. unfold rule_from. cbn.
    split; [split; [constructor|intros ? []]|]. split; [splits; [constructor|intros ? []|intros []]|].
    split; [exists []; splits; [constructor|constructor|intros ? []]|]. split; [destruct (sn_gce s); lia|].
    split; intros ? ? [].
  - destruct (verifyProposal count committer s p) as [s'|e|e|] eqn:E; cbn [rbind].
    + rewrite IH. pose proof (verifyProposal_ok _ _ _ _ _ E l). tauto.
    + split; [discriminate|]. intros H. destruct (verifyProposal_rule _ _ _ _ _ H). congruence.
    + split; [discriminate|]. intros H. destruct (verifyProposal_rule _ _ _ _ _ H). congruence.
    + split; [discriminate|]. intros H. destruct (verifyProposal_rule _ _ _ _ _ H). congruence.
Qed.

Lemma pskID_enc_inj a b e : wf_pskID a -> wf_pskID b -> putPskID a = Ok e -> putPskID b = Ok e -> a = b.
Proof. intros Ha Hb Ea Eb. pose proof (pskID_rt _ _ [] Ha Ea). pose proof (pskID_rt _ _ [] Hb Eb). congruence. Qed.

Lemma pskIds_encoded l : Forall wf_pskID (pskIds l) ->
  (exists es, Forall2 (fun id e => putPskID id = Ok e) (pskIds l) es /\ NoDup es) <->
  NoDup (pskIds l) /\ psk_ids_encodable l.
Proof.
  unfold psk_ids_encodable. generalize (pskIds l). clear l. intros ids Hwf. split.
  - intros (es & F & ND). induction F as [|id e ids es He F IH].
    + split; constructor.
    + inversion Hwf; inversion ND; subst. destruct (IH H2 H6) as [A B]. split; constructor; eauto.
      intros Hin. apply H5. apply In_nth_error in Hin. destruct Hin as [n Hn].
      assert (G : exists e', nth_error es n = Some e' /\ putPskID id = Ok e').
      { clear -F Hn. revert n Hn; induction F; intros [|n] Hn; cbn in *; try discriminate; eauto.
        inversion Hn; subst. eauto. }
      destruct G as (e' & Ge & Gp). assert (e' = e) by congruence. subst. eapply nth_error_In; eauto.
  - intros [ND En]. induction ids as [|id ids IH].
    + exists []. split; constructor.
    + inversion Hwf; inversion ND; inversion En; subst. destruct (IH H2 H6 H10) as (es & F & NDe). destruct H9 as [e He].
      exists (e :: es). split; constructor; auto. intros Hin. apply H5.
      clear -F He Hin H1 H2. induction F as [|i2 e2 ids es E2 F IH]; [inversion Hin|]. inversion H2; subst.
      destruct Hin as [->|Hin]; [left; eapply pskID_enc_inj; eauto|right; auto].
Qed.

Lemma verifyProposalList_ok ps committer : Forall wf_pskID (pskIds ps) ->
  verifyProposalList (map fst ps) (map snd ps) committer = Ok tt <->
  proposal_rule ps committer /\ psk_ids_encodable ps.
Proof.
  intros Hwf. unfold verifyProposalList. rewrite rmap_fst_combine. unfold lenN. rewrite !map_length, N.eqb_refl. cbn [negb].
  fold (lenN ps). pose proof (foldM_verifyProposal (lenN ps) committer ps (mkSeen [] [] [] false)) as H.
  transitivity (rule_from (lenN ps) committer (mkSeen [] [] [] false) ps).
  { rewrite <- H. destruct (foldM _ _ ps); cbn; split; congruence. }
  clear H. unfold rule_from, proposal_rule. cbn [sn_add sn_updateOrRemove sn_psk sn_gce In Nat.add].
  pose proof (pskIds_encoded ps Hwf) as P. split.
  - intros ((A & _) & (B & _ & B') & (es & F & ND & _) & D & E & G).
    destruct (proj1 P (ex_intro _ es (conj F ND))) as [P1 P2]. splits; auto.
    intros r x Hin. specialize (E r x Hin). unfold lenN in E. destruct ps as [|q [|q' ps]]; [destruct Hin| |cbn in E; lia].
    destruct Hin as [->|[]]. reflexivity.
  - intros ((A & B & B' & P1 & D & E & G) & P2). destruct (proj2 P (conj P1 P2)) as (es & F & ND).
    splits; auto.
    + exists es. splits; auto.
    + intros r x Hin. rewrite (E r x Hin). unfold lenN. cbn. lia.
Qed.

(** ** References *)

Lemma find_first pending ref pp :
  find (fun pp => bytes_eqb (pp_ref pp) ref) pending = Some pp <-> first_with_ref pending ref pp.
Proof.
  induction pending as [|q r IH]; cbn.
  - split; [discriminate|]. intros (l1 & l2 & E & _). destruct l1; discriminate.
  - destruct (bytes_eqb_spec (pp_ref q) ref) as [E|E].
    + split.
      * intros H. inversion H; subst. exists [], r. splits; auto.
      * intros (l1 & l2 & H & H1 & H2). destruct l1 as [|q' l1]; [cbn in H; congruence|].
        cbn in H. inversion H; subst. exfalso. apply (H2 q'); cbn; auto.
    + rewrite IH. split.
      * intros (l1 & l2 & -> & H1 & H2). exists (q :: l1), l2. splits; auto. intros x [<-|Hx]; auto.
      * intros (l1 & l2 & H & H1 & H2). destruct l1 as [|q' l1]; [cbn in H; inversion H; subst; congruence|].
        cbn in H. inversion H; subst. exists l1, l2. splits; auto. intros x Hx. apply H2. cbn. auto.
Qed.

Lemma find_none pending ref :
  find (fun pp => bytes_eqb (pp_ref pp) ref) pending = None <-> ~ In ref (map pp_ref pending).
Proof.
  induction pending as [|q r IH]; cbn; [tauto|]. destruct (bytes_eqb_spec (pp_ref q) ref) as [E|E].
  - split; [discriminate|]. intros H. exfalso. auto.
  - rewrite IH. split; intros H; [intros [?|?]; auto|intros ?; auto].
Qed.

Lemma resolveProposals_spec l committer pending ps :
  resolveProposals l committer pending = Ok ps <-> Forall2 (stands_for committer pending) l ps.
Proof.
  revert ps; induction l as [|por l IH]; intros ps; cbn [resolveProposals].
  - split; intros H; [apply Ok_inj in H; subst; constructor|inversion H; reflexivity].
  - split.
    + intros H. rinv. subst. constructor; [|now apply IH]. destruct por; cbn.
      * congruence.
      * destruct (find _ pending) as [pp|] eqn:F; [|discriminate]. exists pp. split; [now apply find_first|congruence].
    + intros H. inversion H; subst. destruct por as [p|ref]; cbn in H2 |- *.
      * rewrite (proj2 (IH l') H4). subst. reflexivity.
      * destruct H2 as (pp & Hf & ->). apply find_first in Hf. rewrite Hf. cbn. rewrite (proj2 (IH l') H4). reflexivity.
Qed.

Lemma resolveProposals_err l committer pending :
  (exists e, resolveProposals l committer pending = Err e) <->
  exists ref, In (PorReference ref) l /\ ~ In ref (map pp_ref pending).
Proof.
  induction l as [|por l IH]; cbn [resolveProposals].
  - split; [intros (e & H); discriminate|intros (r & [] & _)].
  - destruct por as [p|ref]; cbn [rbind].
    + split.
      * intros (e & H). destruct (resolveProposals l committer pending) eqn:E; cbn in H; try discriminate.
        destruct (proj1 IH) as (ref & Hin & Hn); [eauto|]. exists ref. cbn; auto.
      * intros (ref & [Hin|Hin] & Hn); [discriminate|]. destruct (proj2 IH) as (e & He); [eauto|]. rewrite He. cbn. eauto.
    + destruct (find _ pending) as [pp|] eqn:F; cbn [rbind].
      * split.
        { intros (e & H). destruct (resolveProposals l committer pending) eqn:E; cbn in H; try discriminate.
          destruct (proj1 IH) as (ref' & Hin & Hn); [eauto|]. exists ref'. cbn; auto. }
        { intros (ref' & [Hin|Hin] & Hn).
          - inversion Hin; subst. apply find_none in Hn. congruence.
          - destruct (proj2 IH) as (e & He); [eauto|]. rewrite He. cbn. eauto. }
      * split; [|eauto]. intros _. exists ref. split; [cbn; auto|]. now apply find_none.
Qed.

Lemma resolveProposals_nc l committer pending : no_crash (resolveProposals l committer pending).
Proof.
  induction l as [|por l IH]; cbn [resolveProposals]; [exact I|]. apply no_crash_bind.
  - destruct por; [exact I|]. destruct (find _ _); exact I.
  - intros. apply no_crash_bind; auto. intros. exact I.
Qed.

Lemma needsPath_spec l : proposalListNeedsPath l = true <-> l = [] \/ exists p, In p l /\ requires_path p.
Proof.
  unfold proposalListNeedsPath. destruct l as [|p l]; [split; auto|]. rewrite existsb_exists. split.
  - intros (q & Hq & Hr). right. exists q. split; auto. destruct q; cbn; auto; discriminate.
  - intros [H|(q & Hq & Hr)]; [discriminate|]. exists q. split; auto. destruct q; cbn in *; tauto.
Qed.
