(** Members with the same epoch secret have the same view of the group (C78), and
    so have those who join with the same Welcome (C79). *)
From Verif Require Export SpecView.
From Verif Require Import ScheduleFacts TreeHashFacts IntegrityFacts JoinFacts EpochFacts ObtainedFacts GroupFacts FrameFacts SplitFacts.

Section WithCrypto.
Context {C : crypto}.

(** ** Key schedules succeed whatever the secrets *)
Lemma expand_any cs s s' l c n e : expandWithLabel cs s l c n = Ok e -> exists e', expandWithLabel cs s' l c n = Ok e'.
Proof.
  unfold expandWithLabel. intros H. apply rbind_ok in H as (kl & -> & H). apply rbind_ok in H as (d & -> & H). cbn [rbind].
  destruct (_ <? _); [discriminate|]. eauto.
Qed.
Lemma extract_any cs a b a' b' x : extract cs a b = Ok x -> exists x', extract cs a' b' = Ok x'.
Proof. unfold extract. intros H. apply rbind_ok in H as (d & -> & H). cbn [rbind]. eauto. Qed.
Lemma epoch_any ctx j0 p0 e0 j p : extractEpochSecret ctx j0 p0 = Ok e0 -> extractEpochSecret ctx j p = Ok (epoch_secret ctx j p).
Proof.
  intros H. assert (exists e, extractEpochSecret ctx j p = Ok e) as (e & E).
  { unfold extractEpochSecret in *. apply rbind_ok in H as (x & Hx & H). destruct (extract_any _ _ _ p j _ Hx) as (x' & ->).
    cbn [rbind]. apply rbind_ok in H as (raw & -> & H). cbn [rbind]. apply rbind_ok in H as (nh & -> & H). cbn [rbind]. eapply expand_any; eauto. }
  rewrite E. f_equal. now apply epoch_only.
Qed.
Lemma joiner_any ctx i0 c0 e0 i c : extractJoinerSecret ctx i0 c0 = Ok e0 -> extractJoinerSecret ctx i c = Ok (joiner_secret ctx i c).
Proof.
  intros H. assert (exists e, extractJoinerSecret ctx i c = Ok e) as (e & E).
  { unfold extractJoinerSecret in *. apply rbind_ok in H as (x & Hx & H). destruct (extract_any _ _ _ c i _ Hx) as (x' & ->).
    cbn [rbind]. apply rbind_ok in H as (raw & -> & H). cbn [rbind]. apply rbind_ok in H as (nh & -> & H). cbn [rbind]. eapply expand_any; eauto. }
  rewrite E. f_equal. now apply joiner_only.
Qed.

Lemma collide_app_l l1 l2 r1 r2 : collide l1 l2 -> collide (l1 ++ r1) (l2 ++ r2).
Proof. intros (q1 & q2 & I1 & I2 & H). exists q1, q2. splits; auto; apply in_or_app; auto. Qed.
Lemma collide_app_r l1 l2 r1 r2 : collide r1 r2 -> collide (l1 ++ r1) (l2 ++ r2).
Proof. intros (q1 & q2 & I1 & I2 & H). exists q1, q2. splits; auto; apply in_or_app; auto. Qed.

(** ** What an epoch is entered with *)
Lemma entered_facts g : just_entered g ->
  exists joiner, has_joiner g joiner /\
    (forall j p, extractEpochSecret (gr_context g) j p = Ok (epoch_secret (gr_context g) j p)) /\
    computeRootTreeHash (gc_cipherSuite (gr_context g)) (gr_value g) = Ok (gc_treeHash (gr_context g)).
Proof.
  intros [(w & kpp & now & H)|(g0 & raw & now & ac & c & O & H)].
  - apply groupFromWelcome_inv in H. destruct H as (ref & s & Eref & Es & Epsks & H). apply groupFromSecrets_inv in H.
    destruct H as (psk & gi & raw & t & signer & epoch & init & interim & me & priv & Epsk & Egi & Eraw & Et & Esg & Esig & Etag & Ecs & Ev & Eep & Ein & Eint & Eme & -> & _).
    destruct (load t) as [h pt] eqn:El. destruct (load_value t h pt El) as (V & _ & _).
    unfold gr_value, has_joiner. cbn [fst snd gr_heap gr_tree gr_context gr_epochSecret]. rewrite V. exists (gs_joinerSecret s). splits.
    + rewrite Epsks in Epsk. apply nopsk_only in Epsk. subst psk. rewrite Ecs. now apply epoch_only in Eep.
    + intros. eapply epoch_any; eauto.
    + now apply verifyIntegrity_parts in Ev as (E & _).
  - apply accepts_commit_inv in H as [_ H]. apply processCommit_ok in H as (c' & ps & ss & h & t & Hb' & _ & _ & H).
    apply finishCommit_ok in H as (priv & nh & h1 & t1 & th & cs & priv1 & ctx & interim & psk & ep & ini & Hcp & Hnh & Hpath & Hn & ->).
    apply nextEpoch_ok in Hn as (confirmed & joiner & H1 & H2 & H3 & H4 & H5 & H6 & H7).
    unfold gr_value, has_joiner. cbn [fst snd gr_heap gr_tree gr_context gr_epochSecret]. exists joiner.
    assert (Ecs : gc_cipherSuite ctx = gc_cipherSuite (gr_context g0)) by (rewrite H2; reflexivity). rewrite Ecs.
    assert (Eth : gc_treeHash ctx = th) by (rewrite H2; reflexivity). rewrite Eth. splits.
    + apply nopsk_only in H5. subst psk. now apply epoch_only in H6.
    + intros. eapply epoch_any; eauto.
    + destruct (c_path c') as [up|]; [now apply processPath_rfc in Hpath as [Hth _]|]. destruct Hpath as (-> & -> & Hth & _). exact Hth.
Qed.

Theorem entered_with g : just_entered g -> exists joiner, has_joiner g joiner.
Proof. intros H. destruct (entered_facts g H) as (j & Hj & _). eauto. Qed.

Theorem same_secret_same_view g1 g2 j1 j2 k1 k2 : crypto_ok C -> just_entered g1 -> just_entered g2 ->
  has_joiner g1 j1 -> has_joiner g2 j2 ->
  shaped k1 (gr_value g1) -> shaped k2 (gr_value g2) -> wf_nodes (gr_value g1) -> wf_nodes (gr_value g2) ->
  wf_groupContext (gr_context g1) -> wf_groupContext (gr_context g2) ->
  gr_epochSecret g1 = gr_epochSecret g2 ->
  (gr_context g1 = gr_context g2 /\ gr_value g1 = gr_value g2 /\ j1 = j2) \/ collide (epochQueries g1 j1 k1) (epochQueries g2 j2 k2).
Proof.
  intros OK E1 E2 J1 J2 S1 S2 W1 W2 X1 X2 E. destruct (entered_facts g1 E1) as (_ & _ & P1 & T1), (entered_facts g2 E2) as (_ & _ & P2 & T2).
  unfold has_joiner in *. unfold epochQueries.
  destruct (epoch_secret_binding (gr_context g1) j1 (psk_secret (gc_cipherSuite (gr_context g1)) []) (gr_context g2) j2 (psk_secret (gc_cipherSuite (gr_context g2)) [])
    (gr_epochSecret g1) OK X1 X2) as [(Ec & Ej & _)|HC].
  - rewrite J1. apply P1.
  - rewrite E, J2. apply P2.
  - rewrite Ec in *. destruct (root_binding (gc_cipherSuite (gr_context g2)) k1 (gr_value g1) k2 (gr_value g2) _ S1 S2 W1 W2 T1 T2) as [Et|HC]; [left; auto|].
    right. now apply collide_app_r.
  - right. now apply collide_app_l.
Qed.

(** ** The epoch before *)
Lemma interim_length cs a b r : crypto_ok C -> nextInterimTranscriptHash cs a b = Ok r -> lenN r = hashSize (hashOf cs).
Proof.
  intros OK H. unfold nextInterimTranscriptHash in H. apply rbind_ok in H as (x & _ & H). apply hashSum_some in H. subst r. now apply lenN_answer_hash.
Qed.
Lemma obtained_secrets g : crypto_ok C -> obtained g ->
  deriveSecret (gc_cipherSuite (gr_context g)) (gr_epochSecret g) (str "init") = Ok (gr_initSecret g) /\
  lenN (gr_interimTranscriptHash g) = hashSize (hashOf (gc_cipherSuite (gr_context g))).
Proof.
  intros OK. induction 1 as [groupID kpp rnd g H|w kpp now g H|g kps rs ri rh rg g' r O IH H|g raw now g' r O IH H].
  - unfold createGroup in H. apply rbind_ok in H as ([h t] & _ & H). apply rbind_ok in H as (th & _ & H). apply rbind_ok in H as (d & _ & H).
    apply rbind_ok in H as (tag & _ & H). apply rbind_ok in H as (interim & Hi & H). apply rbind_ok in H as (psk & _ & H). apply rbind_ok in H as (ini & Hn & H).
    apply Ok_inj in H. subst g. cbn [gr_context gr_epochSecret gr_initSecret gr_interimTranscriptHash gc_cipherSuite]. split; [exact Hn|now apply interim_length in Hi].
  - apply groupFromWelcome_inv in H. destruct H as (ref & s & Eref & Es & Epsks & H). apply groupFromSecrets_inv in H.
    destruct H as (psk & gi & raw & t & signer & epoch & init & interim & me & priv & Epsk & Egi & Eraw & Et & Esg & Esig & Etag & Ecs & Ev & Eep & Ein & Eint & Eme & -> & _).
    cbn [gr_context gr_epochSecret gr_initSecret gr_interimTranscriptHash]. split; [exact Ein|now apply interim_length in Eint].
  - destruct (createWelcome_frame _ _ _ _ _ _ _ _ (proj1 (sane_consistent _ (obtained_sane _ O))) H) as (h & -> & _). exact IH.
  - destruct (step_cases g raw now) as [(ac & c & Ha)|(_ & Hx)].
    + rewrite H in Ha. cbn [fst] in Ha. clear H. apply accepts_commit_inv in Ha as [_ Ha]. apply processCommit_ok in Ha as (c' & ps & ss & h & t & Hb' & _ & _ & Ha).
      apply finishCommit_ok in Ha as (priv & nh & h1 & t1 & th & cs & priv1 & ctx & interim & psk & ep & ini & Hcp & Hnh & Hpath & Hn & ->).
      apply nextEpoch_ok in Hn as (confirmed & joiner & H1 & H2 & H3 & H4 & H5 & H6 & H7). cbn [gr_context gr_epochSecret gr_initSecret gr_interimTranscriptHash].
      subst ctx. split; [exact H7|now apply interim_length in H3].
    + rewrite H in Hx. cbn [fst] in Hx. cbv zeta in Hx. destruct Hx as (-> & _ & _ & _ & -> & -> & -> & _). exact IH.
Qed.

Theorem committed_with g raw now ac c g' : obtained g -> accepts_commit g raw now ac c g' -> exists commitSecret, has_commit_secret g g' commitSecret.
Proof.
  intros O H. destruct (commit_rfc _ _ _ _ _ _ (obtained_sane _ O) H) as (k & s & _ & Ec & _ & _ & Ee & _). cbv zeta in *. exists s.
  unfold has_commit_secret, has_joiner. rewrite Ee at 1. do 2 f_equal. rewrite Ec. reflexivity.
Qed.

Theorem same_secret_same_past g1 raw1 now1 ac1 c1 g1' s1 g2 raw2 now2 ac2 c2 g2' s2 : crypto_ok C ->
  obtained g1 -> accepts_commit g1 raw1 now1 ac1 c1 g1' -> has_commit_secret g1 g1' s1 ->
  obtained g2 -> accepts_commit g2 raw2 now2 ac2 c2 g2' -> has_commit_secret g2 g2' s2 ->
  wf_groupContext (gr_context g1') -> wf_groupContext (gr_context g2') -> gr_epochSecret g1' = gr_epochSecret g2' ->
  (untagged (entry ac1) = untagged (entry ac2) /\ s1 = s2 /\
   gr_epochSecret g1 = gr_epochSecret g2 /\ gr_interimTranscriptHash g1 = gr_interimTranscriptHash g2) \/
  collide (commitQueries g1 g1' s1 ac1) (commitQueries g2 g2' s2 ac2).
Proof.
  intros OK O1 A1 J1 O2 A2 J2 X1 X2 E.
  assert (N1 : just_entered g1') by (right; eauto 8). assert (N2 : just_entered g2') by (right; eauto 8).
  destruct (entered_facts g1' N1) as (_ & _ & P1 & _), (entered_facts g2' N2) as (_ & _ & P2 & _).
  destruct (obtained_secrets _ OK O1) as (I1 & L1), (obtained_secrets _ OK O2) as (I2 & L2).
  destruct (commit_transcript _ _ _ _ _ _ A1) as (G1 & Cs1 & Cf1 & _), (commit_transcript _ _ _ _ _ _ A2) as (G2 & Cs2 & Cf2 & _).
  destruct (commit_new_state _ _ _ _ _ _ A1) as (_ & _ & z1 & y1 & _ & _ & _ & _ & _ & _ & _ & _ & Jo1 & _).
  destruct (commit_new_state _ _ _ _ _ _ A2) as (_ & _ & z2 & y2 & _ & _ & _ & _ & _ & _ & _ & _ & Jo2 & _).
  unfold has_commit_secret, has_joiner in *. unfold commitQueries. rewrite Cs1 in J1. rewrite Cs2 in J2.
  destruct (epoch_secret_binding (gr_context g1') (joiner_secret (gr_context g1') (gr_initSecret g1) s1) (psk_secret (gc_cipherSuite (gr_context g1)) [])
    (gr_context g2') (joiner_secret (gr_context g2') (gr_initSecret g2) s2) (psk_secret (gc_cipherSuite (gr_context g2)) [])
    (gr_epochSecret g1') OK X1 X2) as [(Ec & Ej & _)|HC].
  - rewrite J1. apply P1.
  - rewrite E, J2. apply P2.
  - assert (Es : gc_cipherSuite (gr_context g1) = gc_cipherSuite (gr_context g2)) by congruence.
    destruct (joiner_secret_binding (gr_context g1') (gr_initSecret g1) s1 (gr_context g2') (gr_initSecret g2) s2 _ OK X1 X2
      (joiner_any _ _ _ _ _ _ Jo1)) as [(_ & Ei & Esec)|HC].
    + rewrite (joiner_any _ _ _ _ _ _ Jo2). now rewrite Ej.
    + rewrite Ec, Cf2 in Cf1. rewrite Es in *.
      destruct (confirmed_binding (gc_cipherSuite (gr_context g2)) (gr_interimTranscriptHash g1) (gr_interimTranscriptHash g2) (entry ac1) (entry ac2)) as [[Eint Eu]|HC]; auto.
      * congruence.
      * unfold deriveSecret in I1, I2. apply rbind_ok in I1 as (n1 & Hn1 & I1). apply rbind_ok in I2 as (n2 & Hn2 & I2).
        assert (n1 = n2) by congruence. subst n2. apply size_only in Hn1. subst n1. rewrite Ei in I1.
        destruct (expand_binding _ _ _ _ _ _ _ _ _ _ eq_refl I1 I2) as [(Ee & _)|HC]; [left; auto|].
        right. do 2 apply collide_app_r. exists (expandQuery (gc_cipherSuite (gr_context g2)) (gr_epochSecret g1) (str "init") [] (secretSize (gc_cipherSuite (gr_context g2)))).
        exists (expandQuery (gc_cipherSuite (gr_context g2)) (gr_epochSecret g2) (str "init") [] (secretSize (gc_cipherSuite (gr_context g2)))).
        split; [right; left; reflexivity|]. split; [right; left; reflexivity|exact HC].
      * right. do 2 apply collide_app_r. eexists. eexists. split; [left; reflexivity|]. split; [left; reflexivity|exact HC].
    + right. apply collide_app_r. now apply collide_app_l.
  - right. now apply collide_app_l.
Qed.

(** ** Joining with the same Welcome *)
Theorem joiners_agree w kpp1 now1 g1 kpp2 now2 g2 : groupFromWelcome w kpp1 now1 = Ok g1 -> groupFromWelcome w kpp2 now2 = Ok g2 ->
  (agree g1 g2 /\ gr_pending g1 = [] /\ gr_pending g2 = []) \/
  exists j1 j2, j1 <> j2 /\ lets_open w kpp1 j1 /\ lets_open w kpp2 j2.
Proof.
  intros H1 H2. apply groupFromWelcome_inv in H1 as (ref1 & s1 & Er1 & Es1 & Ep1 & H1). apply groupFromWelcome_inv in H2 as (ref2 & s2 & Er2 & Es2 & Ep2 & H2).
  apply groupFromSecrets_inv in H1 as (psk & gi & raw & t & signer & epoch & init & interim & me & priv & Epsk & Egi & Eraw & Et & Esg & Esig & Etag & Ecs & Ev & Eep & Ein & Eint & Eme & -> & _).
  apply groupFromSecrets_inv in H2 as (psk' & gi' & raw' & t' & signer' & epoch' & init' & interim' & me' & priv' & Epsk' & Egi' & Eraw' & Et' & Esg' & Esig' & Etag' & Ecs' & Ev' & Eep' & Ein' & Eint' & Eme' & -> & _).
  rewrite Ep1 in Epsk. rewrite Ep2 in Epsk'. assert (psk' = psk) by congruence. subst psk'.
  destruct (list_eq_dec Byte.byte_eq_dec (gs_joinerSecret s1) (gs_joinerSecret s2)) as [Ej|Nj].
  - left. rewrite <- Ej in *. assert (gi' = gi) by congruence. subst gi'. assert (raw' = raw) by congruence. subst raw'.
    assert (t' = t) by congruence. subst t'. unfold agree, gr_value. cbn [gr_heap gr_tree gr_context gr_epochSecret gr_initSecret gr_pskSecret gr_interimTranscriptHash gr_pending].
    assert (epoch' = epoch) by congruence. subst epoch'. assert (init' = init) by congruence. assert (interim' = interim) by congruence. subst. splits; auto.
  - right. exists (gs_joinerSecret s1), (gs_joinerSecret s2). split; [exact Nj|]. apply nopsk_only in Epsk. subst psk.
    assert (L : forall kpp ref s gi, keyPackageRef (kpp_public kpp) = Ok ref -> decryptGroupSecrets w ref (kpp_initKey kpp) = Ok s ->
      decryptGroupInfo w (gs_joinerSecret s) (psk_secret (w_cipherSuite w) []) = Ok gi -> lets_open w kpp (gs_joinerSecret s)).
    { clear. intros kpp ref s gi Er Es Egi. unfold decryptGroupSecrets in Es.
      destruct (findSecret w ref) as [sec|] eqn:Ef; [|discriminate]. unfold findSecret in Ef. apply find_some in Ef as [Hin Hr]. apply bytes_eqb_true in Hr.
      apply rbind_ok in Es as (raw & Hd & Es). apply decrypt_only in Hd. apply unmarshal_ok in Es. apply groupSecrets_CANT in Es as (_ & e & He & ->).
      rewrite app_nil_r in Hd. rewrite (writes_groupSecrets _ _ He) in Hd. apply keyPackageRef_only in Er.
      unfold decryptGroupInfo in Egi. apply rbind_ok in Egi as ([key nonce] & Hk & Egi). apply welcomeKeyNonce_rfc in Hk as [-> ->].
      apply rbind_ok in Egi as (info & Hi & Egi). apply aeadOpen_opened in Hi. split; [|exists info; exact Hi].
      exists sec, s. splits; auto. congruence. }
    split; eapply L; eauto.
Qed.
End WithCrypto.
