(** Proofs about what the clock and the member do not change (C97, C98). *)
From Verif Require Export SpecSound SpecSplit SplitFacts IntegrityFacts JoinFacts ScheduleFacts RemovedFacts TypesFacts.
From Coq Require Import Lia.

Section WithCrypto.
Context {C : crypto}.

(** ** Messages and the clock *)
Lemma processPath_clock g s up h t priv now now' : wf_updatePath up ->
  processPath g s up h t priv now = processPath g s up h t priv now'.
Proof.
  intros W. unfold processPath. cbv zeta. destruct (ln_source (up_leafNode up) =? leafNodeSourceCommit) eqn:E; [|reflexivity].
  assert (L : ln_lifetime (up_leafNode up) = None).
  { apply N.eqb_eq in E. unfold leafNodeSourceCommit in E. destruct W as (_ & _ & _ & [(H & _)|[(H & _)|(_ & H)]]); [congruence|congruence|exact H]. }
  cbn [guard rbind]. unfold leafNodeVerify. cbn [vo_now vo_cipherSuite vo_groupID vo_leafIndex vo_supportedCreds vo_signatureKeys vo_encryptionKeys]. rewrite L. reflexivity.
Qed.
Lemma processCommit_clock g ac now now' : wf_framedContent (ac_content ac) ->
  processCommit g ac [] [] now = processCommit g ac [] [] now'.
Proof.
  intros (_ & _ & W). unfold processCommit. destruct (fc_body (ac_content ac)) as [x|x|c]; [reflexivity|reflexivity|].
  destruct (checkCommit _ _ c) as [[ps ss]| | |]; [|reflexivity|reflexivity|reflexivity].
  destruct (applyH _ _ _ _) as [[h t]| | |]; [|reflexivity|reflexivity|reflexivity].
  assert (E : finishCommit g ac c h t [] [] now = finishCommit g ac c h t [] [] now').
  { unfold finishCommit. cbv zeta. destruct (carryPriv _ _ _) as [priv| | |]; [|reflexivity|reflexivity|reflexivity]. cbn [rbind].
    destruct (extractSize _) as [nh| | |]; [|reflexivity|reflexivity|reflexivity]. cbn [rbind].
    destruct W as [_ W]. destruct (c_path c) as [up|]; [|reflexivity]. now rewrite (processPath_clock g _ up h t priv now now' W). }
  now rewrite E.
Qed.

Theorem message_clock g raw now now' : unmarshalAndProcessMessage g raw now = unmarshalAndProcessMessage g raw now'.
Proof.
  unfold unmarshalAndProcessMessage.
  destruct (unmarshal getMlsMessage raw) as [[m|m|w|gi|kp]| | |] eqn:Er; [| |reflexivity|reflexivity|reflexivity|reflexivity|reflexivity|reflexivity].
  - apply (f_equal noData). unfold processPublicMessage. destruct (verifyPublicMessage g m) as [ac| | |] eqn:Ev; [|reflexivity|reflexivity|reflexivity].
    assert (W : wf_framedContent (ac_content ac)).
    { destruct (verifyPublicMessage_ok _ _ _ Ev) as (Hac & _). apply (carries_wf g raw). rewrite Hac. now apply carries_public. }
    pose proof (processCommit_clock g ac now now' W) as E. destruct (fc_body (ac_content ac)); [reflexivity|reflexivity|exact E].
  - unfold processPrivateMessage. destruct (openPrivateMessage g m) as [ac| | |] eqn:Ev; [|reflexivity|reflexivity|reflexivity].
    assert (W : wf_framedContent (ac_content ac)).
    { destruct (openPrivateMessage_ok _ _ _ _ Er Ev) as (Hac & _). exact (proj1 (carries_wf _ _ _ Hac)). }
    pose proof (processCommit_clock g ac now now' W) as E. destruct (fc_body (ac_content ac)); [reflexivity|reflexivity|]. now rewrite E.
Qed.

(** ** Joining and the clock *)
Definition lifetime_passes (now : gotime) (l : leafNode) : bool :=
  match ln_lifetime l with None => true | Some lt => timeIsZero now || lifetimeVerify lt now end.

Definition atTime (o : verifyOptions) (now : gotime) : verifyOptions :=
  mkVerifyOptions (vo_cipherSuite o) (vo_groupID o) (vo_leafIndex o) (vo_supportedCreds o) (vo_signatureKeys o) (vo_encryptionKeys o) now.
Lemma leaf_clock l o now' : leafNodeVerify l o = Ok tt ->
  leafNodeVerify l (atTime o now') = guard (lifetime_passes now' l) "mls: lifetime verification failed".
Proof.
  unfold leafNodeVerify, atTime. cbn [vo_now vo_cipherSuite vo_groupID vo_leafIndex vo_supportedCreds vo_signatureKeys vo_encryptionKeys]. fold (lifetime_passes now' l). intros H.
  apply rbind_ok in H as (b & -> & H). cbn [rbind]. apply rbind_guard in H as [-> H]. apply rbind_guard in H as [-> H]. apply rbind_guard in H as [_ H].
  apply rbind_guard in H as [-> H]. apply rbind_guard in H as [-> H]. cbn [guard rbind]. rewrite H. now destruct (lifetime_passes now' l).
Qed.

Lemma leaves_clock t ctx creds now now' lis : forall sk ek r, verifyLeaves t ctx creds now lis sk ek = Ok r ->
  (verifyLeaves t ctx creds now' lis sk ek = Ok r /\
     forall li l, In li lis -> getLeaf t li = Ok (Some l) -> lifetime_passes now' l = true) \/
  (verifyLeaves t ctx creds now' lis sk ek = Err "mls: lifetime verification failed" /\
     exists li l, In li lis /\ getLeaf t li = Ok (Some l) /\ lifetime_passes now' l = false).
Proof.
  induction lis as [|li lis IH]; intros sk ek r H; cbn [verifyLeaves] in *.
  - left. split; [exact H|]. intros ? ? [].
  - apply rbind_ok in H as (o & Eo & H). rewrite Eo. cbn [rbind]. destruct o as [l|].
    + apply rbind_ok in H as ([] & El & H). apply (leaf_clock _ _ now') in El. unfold atTime in El.
      cbn [vo_now vo_cipherSuite vo_groupID vo_leafIndex vo_supportedCreds vo_signatureKeys vo_encryptionKeys] in El. rewrite El.
      destruct (lifetime_passes now' l) eqn:Ep; cbn [guard rbind].
      * destruct (IH _ _ _ H) as [[H1 H2]|[H1 (li' & l' & H2 & H3)]].
        { left. split; [exact H1|]. intros li' l' [<-|Hin] Hl; [|eauto]. rewrite Eo in Hl. apply Ok_inj in Hl. injection Hl as <-. exact Ep. }
        { right. split; [exact H1|]. exists li', l'. cbn [In]. auto. }
      * right. split; [reflexivity|]. exists li, l. cbn [In]. auto.
    + destruct (IH _ _ _ H) as [[H1 H2]|[H1 (li' & l' & H2 & H3)]].
      { left. split; [exact H1|]. intros li' l' [<-|Hin] Hl; [|eauto]. rewrite Eo in Hl. discriminate. }
      { right. split; [exact H1|]. exists li', l'. cbn [In]. auto. }
Qed.

Lemma tree_clock t ctx now now' : verifyIntegrity t ctx now = Ok tt ->
  (verifyIntegrity t ctx now' = Ok tt /\
     forall li l, In li (upto (numLeaves t)) -> getLeaf t li = Ok (Some l) -> lifetime_passes now' l = true) \/
  (verifyIntegrity t ctx now' = Err "mls: lifetime verification failed" /\
     exists li l, In li (upto (numLeaves t)) /\ getLeaf t li = Ok (Some l) /\ lifetime_passes now' l = false).
Proof.
  unfold verifyIntegrity. cbv zeta. intros H. apply rbind_ok in H as (h & -> & H). cbn [rbind]. apply rbind_guard in H as [-> H]. cbn [guard rbind].
  apply rbind_ok in H as (ph & -> & H). cbn [rbind]. apply rbind_guard in H as [-> H]. cbn [guard rbind]. apply rbind_ok in H as (creds & -> & H). cbn [rbind].
  apply rbind_ok in H as (keys & Hk & H). destruct (leaves_clock _ _ _ _ now' _ _ _ _ Hk) as [[-> H2]|[-> H2]]; cbn [rbind]; [left|right]; split; auto.
Qed.

Lemma join_clock w kpp now now' g : groupFromWelcome w kpp now = Ok g ->
  (groupFromWelcome w kpp now' = Ok g /\
     forall li l, In li (upto (numLeaves (gr_value g))) -> getLeaf (gr_value g) li = Ok (Some l) -> lifetime_passes now' l = true) \/
  (groupFromWelcome w kpp now' = Err "mls: lifetime verification failed" /\
     exists li l, In li (upto (numLeaves (gr_value g))) /\ getLeaf (gr_value g) li = Ok (Some l) /\ lifetime_passes now' l = false).
Proof.
  unfold groupFromWelcome. intros H. apply rbind_ok in H as (ref & -> & H). cbn [rbind]. apply rbind_ok in H as (s & -> & H). cbn [rbind].
  apply rbind_guard in H as [-> H]. cbn [guard rbind]. apply rbind_guard in H as [-> H]. cbn [guard rbind].
  destruct (groupFromSecrets_inv _ _ _ _ _ _ _ H) as (psk & gi & raw & t & signer & epoch & init & interim & me & priv & E1 & E2 & E3 & E4 & E5 & E6 & E7 & E8 & E9 & E10 & E11 & E12 & E13 & E14 & priv0 & E15 & E16).
  assert (Ev : gr_value g = t). { rewrite E14. unfold gr_value. cbn [gr_heap gr_tree]. destruct (load t) as [hh pp] eqn:El. cbn [fst snd]. now apply load_value. }
  rewrite Ev. unfold groupFromSecrets. rewrite E1. cbn [rbind]. rewrite E2. cbn [rbind]. rewrite E3, E4. cbn [rbind]. rewrite E5. cbn [rbind]. rewrite E6. cbn [guard rbind].
  rewrite E7. cbn [guard rbind]. rewrite (proj2 (N.eqb_eq _ _) E8). cbn [guard rbind].
  destruct (tree_clock _ _ _ now' E9) as [[-> H2]|[-> H2]]; cbn [rbind]; [left|right; split; auto].
  split; [|exact H2]. rewrite E10. cbn [rbind]. rewrite E11. cbn [rbind]. rewrite E12. cbn [rbind]. rewrite E13. cbn [rbind]. rewrite E15. cbn [rbind]. rewrite E16. cbn [rbind].
  rewrite E14. now destruct (load t).
Qed.

Lemma passes_iff now l : later_than_1970 now -> wf_leafNode l -> lifetime_passes now l = true <-> current_leaf now l.
Proof.
  intros Hn (_ & _ & _ & W). unfold lifetime_passes, current_leaf. rewrite (later_not_zero _ Hn). cbn [orb]. destruct (ln_lifetime l) as [lt|] eqn:E.
  - assert (Wl : wf_lifetime lt). { destruct W as [(_ & (lt' & E' & W) & _)|[(_ & E' & _)|(_ & E')]]; congruence. }
    destruct Wl as [W1 W2]. rewrite lifetimeVerify_spec by assumption. split; [intros H lt' E'; injection E' as <-; exact H|intros H; now apply H].
  - split; [intros _ lt' E'; discriminate|reflexivity].
Qed.

Theorem joins_alike w kpp now now' g : groupFromWelcome w kpp now = Ok g -> later_than_1970 now' ->
  ((forall li l, leaf_at (gr_value g) li = Some l -> current_leaf now' l) /\ groupFromWelcome w kpp now' = Ok g) \/
  ((exists li l, leaf_at (gr_value g) li = Some l /\ ~ current_leaf now' l) /\
     groupFromWelcome w kpp now' = Err "mls: lifetime verification failed").
Proof.
  intros H Hn. assert (O : obtained g) by (eapply obtained_joined; eauto).
  pose proof (sane_shape _ (obtained_sane g O)) as Sh.
  pose proof (heap_nodes _ (gr_tree g) (ty_heap _ (joined_typed _ _ _ _ H))) as Wn. fold (gr_value g) in Wn.
  assert (Wl : forall li l, leaf_at (gr_value g) li = Some l -> wf_leafNode l).
  { intros li l Hl. unfold leaf_at in Hl. destruct (nth_error (gr_value g) (N.to_nat (2 * li))) as [[[l0|p]|]|] eqn:E; try discriminate. injection Hl as ->.
    apply nth_error_In in E. unfold wf_nodes in Wn. rewrite Forall_forall in Wn. exact (Wn _ E). }
  destruct Sh as [Sh|(k & Sh)].
  { exfalso. pose proof (ms_in _ (obtained_state _ O)) as Hi. apply Hi. rewrite Sh. unfold leaf_at. now destruct (N.to_nat (2 * gr_myLeafIndex g)). }
  pose proof (shaped_full _ _ Sh) as F.
  assert (Hup : forall li, In li (upto (numLeaves (gr_value g))) <-> li < leaf_count k) by (intros li; rewrite (numLeaves_tree (gr_value g) k (proj1 F) (proj2 F)); apply upto_In).
  assert (In_at : forall li l, In li (upto (numLeaves (gr_value g))) -> getLeaf (gr_value g) li = Ok (Some l) -> leaf_at (gr_value g) li = Some l).
  { intros li l Hi Hg. apply Hup in Hi. rewrite (IntegrityFacts.getLeaf_at k _ li Sh Hi) in Hg. now apply Ok_inj in Hg. }
  assert (At_in : forall li l, leaf_at (gr_value g) li = Some l -> In li (upto (numLeaves (gr_value g))) /\ getLeaf (gr_value g) li = Ok (Some l)).
  { intros li l Hl. pose proof (IntegrityFacts.leaf_at_range k _ li l F Hl) as Hr. rewrite Hup. split; [exact Hr|]. now rewrite (IntegrityFacts.getLeaf_at k _ li Sh Hr), Hl. }
  destruct (join_clock _ _ _ now' _ H) as [[H1 H2]|[H1 (li & l & H2 & H3 & H4)]]; [left|right]; split; auto.
  - intros li l Hl. apply passes_iff; eauto. destruct (At_in _ _ Hl). eauto.
  - exists li, l. split; [eauto|]. intros Hc. apply passes_iff in Hc; eauto. congruence.
Qed.

(** ** Two members and one message *)
Lemma carry_full n l p : length p = n -> exists p', carryPriv n l p = Ok p'.
Proof. intros <-. unfold carryPriv. destruct (Nat.ltb_spec (length p) (Nat.min (length p) l)); [lia|eauto]. Qed.
Lemma commit_alike g m ac c now : sane g -> sane m -> agree g m -> gr_pending m = gr_pending g ->
  fc_body (ac_content ac) = BCommit c -> c_path c = None ->
  snd (processCommit m ac [] [] now) = snd (processCommit g ac [] [] now).
Proof.
  intros O Om (S1 & S2 & S3 & S4 & S5 & S6) Hp Hb Hc. unfold processCommit. rewrite Hb.
  assert (Ck : forall li, checkCommit m li c = checkCommit g li c) by (intros li; unfold checkCommit; now rewrite Hp, S1). rewrite Ck.
  destruct (checkCommit g _ c) as [[ps ss]|e|e|]; [|reflexivity|reflexivity|reflexivity].
  pose proof (sane_consistent _ O) as [Pg Lg]. pose proof (sane_consistent _ Om) as [Pm Lm].
  destruct (applyH_value _ _ ps ss Pg) as [Vg _]. destruct (applyH_value _ _ ps ss Pm) as [Vm _]. fold (gr_value g) in Vg. fold (gr_value m) in Vm. rewrite S2, <- Vg in Vm.
  destruct (applyH (gr_heap g) (gr_tree g) ps ss) as [[h t]|e|e|], (applyH (gr_heap m) (gr_tree m) ps ss) as [[hm tm]|em|em|];
    cbn [rmap] in Vm; try discriminate; [|injection Vm as ->; reflexivity|injection Vm as ->; reflexivity|reflexivity].
  apply Ok_inj in Vm. unfold value in Vm. cbn [fst snd] in Vm.
  destruct (carry_full (length (gr_tree g)) (length t) (gr_privTree g) Lg) as (pg & Cg). destruct (carry_full (length (gr_tree m)) (length tm) (gr_privTree m) Lm) as (pm & Cm).
  unfold finishCommit. rewrite Hc, Cg, Cm. cbn [rbind]. rewrite S1, Vm. unfold nextEpoch. rewrite S1, S3, S6.
  destruct (extractSize _) as [nh| | |]; cbn [rbind]; try reflexivity.
  destruct (computeRootTreeHash _ (deref h t)) as [th| | |]; cbn [rbind]; try reflexivity.
  destruct (confirmedTranscriptHash _ _ _ _ _) as [co| | |]; cbn [rbind]; try reflexivity.
  destruct (nextInterimTranscriptHash _ _ _) as [it| | |]; cbn [rbind]; try reflexivity.
  destruct (extractJoinerSecret _ _ _) as [jo| | |]; cbn [rbind]; try reflexivity.
  destruct (extractPSKSecret _ _ _) as [psk| | |]; cbn [rbind]; try reflexivity.
  destruct (extractEpochSecret _ _ _) as [es| | |]; cbn [rbind]; try reflexivity.
  destruct (deriveSecret _ _ _) as [ini| | |]; cbn [rbind]; reflexivity.
Qed.

Lemma responds_alike_sane g m raw now now' : sane g -> sane m -> agree g m -> gr_pending m = gr_pending g ->
  (forall ac c, carries g raw ac -> fc_body (ac_content ac) = BCommit c -> c_path c = None) ->
  snd (unmarshalAndProcessMessage m raw now') = snd (unmarshalAndProcessMessage g raw now).
Proof.
  intros O Om Ag Hp Hc. rewrite (message_clock m raw now' now). pose proof Ag as (S1 & S2 & S3 & S4 & S5 & S6).
  assert (Se : same_epoch g m) by (unfold same_epoch; splits; congruence).
  unfold unmarshalAndProcessMessage.
  destruct (unmarshal getMlsMessage raw) as [[x|x|w|gi|kp]| | |] eqn:Er; [| |reflexivity|reflexivity|reflexivity|reflexivity|reflexivity|reflexivity].
  - unfold noData. cbn [snd]. apply (f_equal (rmap (fun _ => None))). unfold processPublicMessage. rewrite (verifyPublic_same g m x Se).
    destruct (verifyPublicMessage g x) as [ac|e|e|] eqn:Ev; [|reflexivity|reflexivity|reflexivity].
    assert (Hca : carries g raw ac) by (destruct (verifyPublicMessage_ok _ _ _ Ev) as (Hac & _); rewrite Hac; now apply carries_public).
    pose proof (fun c Hb => commit_alike g m ac c now O Om Ag Hp Hb (Hc ac c Hca Hb)) as E. destruct (fc_body (ac_content ac)) as [d|p|c] eqn:Eb; [reflexivity| |now apply (E c)].
    unfold processProposal. rewrite Eb, S1. now destruct (generateProposalRef _ ac).
  - unfold processPrivateMessage. rewrite (openPrivate_same g m x Se).
    destruct (openPrivateMessage g x) as [ac|e|e|] eqn:Ev; [|reflexivity|reflexivity|reflexivity].
    destruct (openPrivateMessage_ok _ _ _ _ Er Ev) as (Hca & _).
    pose proof (fun c Hb => commit_alike g m ac c now O Om Ag Hp Hb (Hc ac c Hca Hb)) as E. destruct (fc_body (ac_content ac)) as [d|p|c] eqn:Eb; [reflexivity| |].
    + unfold noData. cbn [snd]. unfold processProposal. rewrite Eb, S1. now destruct (generateProposalRef _ ac).
    + unfold noData. cbn [snd]. now rewrite (E c eq_refl).
Qed.

Theorem responds_alike g m raw now now' : obtained g -> obtained m -> agree g m -> gr_pending m = gr_pending g ->
  (forall ac c, carries g raw ac -> fc_body (ac_content ac) = BCommit c -> c_path c = None) ->
  snd (unmarshalAndProcessMessage m raw now') = snd (unmarshalAndProcessMessage g raw now).
Proof. intros O Om. apply responds_alike_sane; now apply obtained_sane. Qed.

(** Who accepts agrees. *)
Theorem alike_after g m raw now now' d g' m' d' : obtained g -> obtained m -> agree g m -> gr_pending m = gr_pending g ->
  (forall ac c, carries g raw ac -> fc_body (ac_content ac) = BCommit c -> c_path c = None) ->
  unmarshalAndProcessMessage g raw now = (g', Ok d) -> unmarshalAndProcessMessage m raw now' = (m', d') ->
  d' = Ok d /\ agree g' m' /\ gr_pending m' = gr_pending g'.
Proof.
  intros O Om Ag Hp Hc E Em. pose proof (responds_alike g m raw now now' O Om Ag Hp Hc) as R. rewrite E, Em in R. cbn [snd] in R. subst d'.
  destruct (same_message_agree g m raw now now' d d g' m' O Om Ag Hp E Em) as (_ & P & _ & _ & [A|(ac & c & A & _ & K)]); [auto|].
  exfalso. destruct A as (A1 & A2 & _). specialize (Hc _ _ A1 A2). unfold keys_collide in K. cbv zeta in K. destruct K as (up & n & s1 & s2 & k1 & k2 & K & _). congruence.
Qed.

(** ** Two members and one path *)
Lemma path_gives g m raw now now' ac c up li g' : obtained g -> obtained m -> agree g m -> gr_pending m = gr_pending g ->
  accepts_commit g raw now ac c g' -> c_path c = Some up -> fc_sender (ac_content ac) = SMember li ->
  exists priv, carryPriv (length (gr_value m)) (length (gr_value g')) (gr_privTree m) = Ok priv /\
    (snd (unmarshalAndProcessMessage m raw now') =
       rmap (fun _ => None) (decryptPathSecrets (gc_cipherSuite (gr_context g)) (gr_value g')
         (next_context (gr_context g) (gc_treeHash (gr_context g')) (gc_confirmedTranscriptHash (gr_context g))) li (gr_myLeafIndex m) up priv) \/
     keys_collide g m c g').
Proof.
  intros O Om Ag Hp A Hup Hs. pose proof Ag as (S1 & S2 & S3 & S4 & S5 & S6). pose proof (obtained_sane g O) as Sa. pose proof (obtained_sane m Om) as Sm.
  rewrite (message_clock m raw now' now).
  pose proof (accepts_commit_inv _ _ _ _ _ _ A) as [_ Ep]. pose proof A as (_ & Hb & _).
  assert (Se : same_epoch m g) by (unfold same_epoch; splits; congruence).
  rewrite (same_commit m g raw now ac c g' Se A).
  apply processCommit_ok in Ep. destruct Ep as (c' & proposals & senders & h & t & Hb' & Hck & Ha & Hf). assert (c' = c) by congruence. subst c'.
  rewrite Hs in Hck. cbn [sender_leafIndex] in Hck. assert (Ek : checkCommit m li c = Ok (proposals, senders)) by (unfold checkCommit in *; now rewrite Hp, S1).
  pose proof (proj1 (sane_consistent _ Sa)) as Pr. destruct (applyH_value_ok _ _ _ _ _ _ Pr Ha) as [V P]. fold (gr_value g) in V.
  pose proof (proj1 (sane_consistent _ Sm)) as Prm. pose proof V as Vm. rewrite <- S2 in Vm. unfold gr_value in Vm.
  destruct (applyH_of_value _ _ _ _ _ Prm Vm) as (h2 & t2 & Ha2 & V2 & P2).
  pose proof (vapply_shape _ _ _ _ (sane_shape _ Sa) V) as W.
  destruct (finishCommit_ok _ _ _ _ _ _ _ _ _ Hf) as (priv & nh & h1 & t1 & th & z & priv1 & ctx & it & psk & es & ini & Ec & Enh & Hpp & Hne & Eg').
  rewrite Hup, Hs in Hpp. cbn [sender_leafIndex] in Hpp.
  destruct (carry_full (length (gr_tree m)) (length t2) (gr_privTree m) (proj2 (sane_consistent _ Sm))) as (pm & Ecm).
  destruct (processPath_same g m li up h t h2 t2 priv pm now h1 t1 th z priv1 S1 P P2 W V2 Hpp) as (h3 & t3 & E3 & Hpm).
  apply processPath_all in Hpp. destruct Hpp as (Hm & Hth & Hd).
  assert (Eth : gc_treeHash (gr_context g') = th).
  { rewrite Eg'. cbn [gr_context]. destruct (nextEpoch_ok _ _ _ _ _ _ _ _ _ _ _ Hne) as (co & jo & _ & -> & _). reflexivity. }
  assert (Evg : gr_value g' = deref h1 t1) by (rewrite Eg'; reflexivity).
  assert (Lt : length (gr_value g') = length t2).
  { rewrite Evg. unfold deref. rewrite map_length, (mergeH_length _ _ _ _ _ _ _ Hm). pose proof (f_equal (@length _) V2) as L. unfold deref in L. rewrite !map_length in L. now symmetry. }
  exists pm. rewrite gr_value_length, Lt, Eth, Evg. split; [exact Ecm|].
  change (next_context ?a ?b ?c) with (nextContext a b c).
  unfold processCommit. rewrite Hb, Hs. cbn [sender_leafIndex]. rewrite Ek, Ha2.
  unfold finishCommit. cbv zeta. rewrite S1, Ecm. cbn [rbind]. rewrite Enh. cbn [rbind]. rewrite Hup, Hs. cbn [sender_leafIndex]. rewrite Hpm.
  destruct (decryptPathSecrets _ (deref h1 t1) _ li (gr_myLeafIndex m) up pm) as [[zm pm1]|e|e|] eqn:Hdm; cbn [rbind rmap]; [|left; reflexivity|left; reflexivity|left; reflexivity].
  destruct (list_eq_dec Byte.byte_eq_dec zm z) as [->|Hz].
  - left. assert (NE : nextEpoch m ac th z [] [] = nextEpoch g ac th z [] []) by (unfold nextEpoch; now rewrite S1, S3, S6).
    rewrite NE, Hne. reflexivity.
  - right. apply decryptPathSecrets_last in Hd as (fdp & n & s1 & key1 & F1 & N1 & K1 & L1 & Hz1).
    apply decryptPathSecrets_last in Hdm as (fdp' & n' & s2 & key2 & F2 & N2 & K2 & L2 & Hz2).
    rewrite F1 in F2. apply Ok_inj in F2. subst fdp'. rewrite N1 in N2. apply Ok_inj in N2. injection N2 as <-.
    unfold keys_collide. cbv zeta. rewrite Eth, Evg. exists up, n, s1, s2, key1, key2.
    assert (Mono : forall p p' x y s, carryPriv x y p = Ok p' -> last_secret (gc_cipherSuite (gr_context g)) p' (nextContext (gr_context g) th (gc_confirmedTranscriptHash (gr_context g))) up s ->
       last_secret (gc_cipherSuite (gr_context g)) p (nextContext (gr_context g) th (gc_confirmedTranscriptHash (gr_context g))) up s).
    { intros p p' x y s Hc (b & u & a & ct & pk & s0 & G1 & G2 & G3 & G4 & G5). exists b, u, a, ct, pk, s0. splits; auto. eapply carryPriv_in; eauto. }
    change (next_context ?a ?b ?c) with (nextContext a b c).
    splits; auto.
    + apply getN_ok in N1. eapply nth_error_In; eauto.
    + intros ->. congruence.
    + exact (Mono _ _ _ _ _ Ec L1).
    + exact (Mono _ _ _ _ _ Ecm L2).
Qed.
End WithCrypto.
