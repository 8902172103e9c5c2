(** Proofs about members who accept the same messages. *)
From Verif Require Export SpecSplit FollowFacts.
From Coq Require Import Lia.

Section WithCrypto.
Context {C : crypto}.

Lemma last_any {A} (l : list A) x y : l <> [] -> last l x = last l y.
Proof. induction l as [|a [|b l] IH]; intros H; [contradiction|reflexivity|]. cbn [last] in *. apply IH. discriminate. Qed.
Lemma last_cons {A} (l : list A) x y : last (y :: l) x = last l y.
Proof. destruct l; [reflexivity|]. change (last (a :: l) x = last (a :: l) y). now apply last_any. Qed.

(** The secret of the last node of a path gives its key. *)
Lemma derivePath_last cs t l : forall priv s x n key priv' s', getN t x = Ok (Some n) -> node_keys cs s (node_encryptionKey n) key ->
  derivePath cs t priv s l = Ok (priv', s') ->
  exists n' key', getN t (last l x) = Ok (Some n') /\ node_keys cs s' (node_encryptionKey n') key'.
Proof.
  induction l as [|y l IH]; intros priv s x n key priv' s' Hx Hk H; cbn [derivePath] in H.
  - apply Ok_inj in H. apply pair_equal_spec in H as [_ <-]. exists n, key. auto.
  - apply rbind_ok in H as (s1 & H1 & H). apply rbind_ok in H as ([n1|] & Hn & H); [|discriminate]. apply rbind_ok in H as (np & Hp & H).
    apply rbind_ok in H as (p1 & _ & H). apply nodePriv_iff in Hp. pose proof (IH _ _ _ _ _ _ _ Hn Hp H) as (n' & key' & E & K).
    exists n', key'. split; [|exact K]. now rewrite last_cons.
Qed.

Lemma position_skip x l : forall i, position x l = Some i -> l <> [] /\ last (skipn (S i) l) x = last l x.
Proof.
  induction l as [|y l IH]; intros i H; cbn [position] in H; [discriminate|]. split; [discriminate|]. destruct (y =? x) eqn:E.
  - injection H as <-. apply N.eqb_eq in E. subst y. cbn [skipn]. destruct l; reflexivity.
  - destruct (position x l) as [j|]; [|discriminate]. injection H as <-. destruct (IH _ eq_refl) as [Hl IH'].
    change (skipn (S (S j)) (y :: l)) with (skipn (S j) l). rewrite IH'. destruct l; [contradiction|reflexivity].
Qed.

Lemma decryptPathSecrets_last cs t ctx s r up priv c priv' : decryptPathSecrets cs t ctx s r up priv = Ok (c, priv') ->
  exists fdp n root key, filteredDirectPath t (nodeIndexOf s) = Ok fdp /\ getN t (last fdp 0) = Ok (Some n) /\
    node_keys cs root (node_encryptionKey n) key /\ last_secret cs priv ctx up root /\ c = DeriveSecret cs root (str "path").
Proof.
  unfold decryptPathSecrets. cbv zeta. intros H. apply rbind_ok in H as (fdp & Hfdp & H). apply rbind_guard in H as [Hlen H].
  destruct (position _ _) as [i|] eqn:Epos; [|discriminate]. apply rbind_ok in H as (upn & Hupn & H).
  destruct (if nodeIndexOf r <? nodeIndexOf s then _ else _) as [cp|]; [|discriminate].
  apply rbind_ok in H as (rs & _ & H). apply rbind_guard in H as [_ H]. apply rbind_ok in H as ([[ri np]|] & Hf & H); [|discriminate].
  apply rbind_ok in H as (ct & Hct & H). apply rbind_ok in H as (ps & Hps & H). apply rbind_ok in H as ([n|] & Hn & H); [|discriminate].
  apply rbind_ok in H as (np' & Hnp & H). apply rbind_ok in H as (p1 & _ & H). apply rbind_ok in H as ([p2 s2] & Hd & H).
  apply rbind_ok in H as (cs' & Hcs & H). apply Ok_inj in H. apply pair_equal_spec in H as [<- _].
  apply nodePriv_iff in Hnp. destruct (derivePath_last _ _ _ _ _ _ _ _ _ _ Hn Hnp Hd) as (n' & key' & E & K).
  destruct (position_skip _ _ _ Epos) as [Hne Hl]. rewrite Hl, (last_any _ _ 0 Hne) in E.
  exists fdp, n', s2, key'. splits; auto; [|now apply derive_only in Hcs].
  apply index_ok in Hupn, Hct. apply N.eqb_eq in Hlen. apply derivePath_secret in Hd.
  destruct (nth_error_split _ _ Hupn) as (before & after & Eup & Eb).
  unfold decryptPathSecret in Hps. apply rbind_ok in Hps as (rawCtx & Hctx & Hps). apply decrypt_only in Hps. rewrite (writes_groupContext _ _ Hctx) in Hps.
  exists before, upn, after, ct, np, ps. splits; auto.
  - eapply findPriv_in; eauto.
  - eapply nth_error_In; eauto.
  - rewrite Hd. f_equal. apply position_lt in Epos. unfold lenN in Hlen. rewrite Eup, app_length in Hlen. cbn [length] in Hlen. rewrite skipn_length. lia.
Qed.

(** ** What a message means to the two *)
Lemma carries_same g m raw ac : same_epoch g m -> carries g raw ac -> carries m raw ac.
Proof.
  intros (E1 & E2 & E3) H. destruct H as [x Hx|x sds sd secret pc H1 H2 H3 H4 H5]; [now apply carries_public|].
  eapply carries_private; [eassumption|rewrite E1, E3; eassumption|rewrite E1; eassumption| |rewrite E1; eassumption].
  rewrite <- H4. apply messageSecret_same; auto. rewrite <- !gr_value_length. congruence.
Qed.

Lemma finish_same g m ac c h t h2 t2 now now' g' m' : agree g m -> proper h t -> proper h2 t2 -> well_shaped (deref h t) -> deref h2 t2 = deref h t ->
  finishCommit g ac c h t [] [] now = Ok g' -> finishCommit m ac c h2 t2 [] [] now' = Ok m' ->
  gr_context m' = gr_context g' /\ gr_value m' = gr_value g' /\ gr_interimTranscriptHash m' = gr_interimTranscriptHash g' /\
  gr_pskSecret m' = gr_pskSecret g' /\ gr_pending m' = gr_pending g' /\
  (agree g' m' \/ keys_collide g m c g').
Proof.
  intros (S1 & S2 & S3 & S4 & S5 & S6) P P2 W V Hg Hm.
  apply finishCommit_ok in Hg as (priv & nh & h1 & t1 & th & z & priv1 & ctx & it & psk & es & ini & Ec & Enh & Hpp & Hne & ->).
  apply finishCommit_ok in Hm as (privm & nhm & h1m & t1m & thm & zm & priv1m & ctxm & itm & pskm & esm & inim & Ecm & Enhm & Hppm & Hnem & ->).
  rewrite S1 in Enhm. rewrite Enh in Enhm. apply Ok_inj in Enhm. subst nhm.
  assert (NE : nextEpoch m ac thm zm [] [] = nextEpoch g ac thm zm [] []) by (unfold nextEpoch; now rewrite S1, S3, S6).
  rewrite NE in Hnem. clear NE.
  assert (Key : deref h1m t1m = deref h1 t1 /\ thm = th /\ (zm = z \/
    exists up n s1 s2 key1 key2, c_path c = Some up /\ In (Some n) (deref h1 t1) /\ s1 <> s2 /\
     last_secret (gc_cipherSuite (gr_context g)) priv (nextContext (gr_context g) th (gc_confirmedTranscriptHash (gr_context g))) up s1 /\
     last_secret (gc_cipherSuite (gr_context g)) privm (nextContext (gr_context g) th (gc_confirmedTranscriptHash (gr_context g))) up s2 /\
     node_keys (gc_cipherSuite (gr_context g)) s1 (node_encryptionKey n) key1 /\ node_keys (gc_cipherSuite (gr_context g)) s2 (node_encryptionKey n) key2)).
  { destruct (c_path c) as [up|].
    - apply processPath_all in Hpp as (Hmg & Hth & Hd). apply processPath_all in Hppm as (Hmgm & Hthm & Hdm). rewrite S1 in *.
      destruct W as [W|(k & Sh)].
      { exfalso. unfold mergeUpdatePathH in Hmg. apply rbind_ok in Hmg. destruct Hmg as (v & Em & _). rewrite W in Em. now apply merge_nil in Em. }
      destruct (mergeH_inv _ k h t _ up h1 t1 P Sh Hmg) as (E3 & _).
      assert (Sh2 : shaped k (deref h2 t2)) by now rewrite V.
      destruct (mergeH_inv _ k h2 t2 _ up h1m t1m P2 Sh2 Hmgm) as (E4 & _). rewrite V, E3 in E4. apply Ok_inj in E4.
      rewrite <- E4 in *. rewrite Hth in Hthm. apply Ok_inj in Hthm. subst thm. splits; auto.
      apply decryptPathSecrets_last in Hd as (fdp & n & s1 & key1 & F1 & N1 & K1 & L1 & ->).
      apply decryptPathSecrets_last in Hdm as (fdp' & n' & s2 & key2 & F2 & N2 & K2 & L2 & ->).
      rewrite F1 in F2. apply Ok_inj in F2. subst fdp'. rewrite N1 in N2. apply Ok_inj in N2. injection N2 as <-.
      destruct (list_eq_dec Byte.byte_eq_dec s1 s2) as [->|Hs]; [now left|]. right.
      exists up, n, s1, s2, key1, key2. splits; auto. apply getN_ok in N1. eapply nth_error_In; eauto.
    - destruct Hpp as (-> & -> & Eth & -> & ->). destruct Hppm as (-> & -> & Ethm & -> & ->). rewrite S1, V, Eth in Ethm. apply Ok_inj in Ethm. subst thm. auto. }
  destruct Key as (Ev & -> & Hz).
  pose proof (nextEpoch_ok _ _ _ _ _ _ _ _ _ _ _ Hne) as (co & jo & A1 & A2 & A3 & A4 & A5 & A6 & A7).
  pose proof (nextEpoch_ok _ _ _ _ _ _ _ _ _ _ _ Hnem) as (com & jom & B1 & B2 & B3 & B4 & B5 & B6 & B7).
  rewrite A1 in B1. apply Ok_inj in B1. subst com. rewrite A3 in B3. apply Ok_inj in B3. subst itm. rewrite A5 in B5. apply Ok_inj in B5. subst pskm.
  unfold agree, keys_collide, gr_value. cbv zeta. cbn [gr_context gr_heap gr_tree gr_interimTranscriptHash gr_pskSecret gr_epochSecret gr_initSecret gr_pending].
  splits; auto; try congruence. destruct Hz as [->|Hz].
  - left. rewrite Hne in Hnem. apply Ok_inj in Hnem. inversion Hnem; subst. splits; auto.
  - right. destruct Hz as (up & n & s1 & s2 & key1 & key2 & E1 & E2 & E3 & E4 & E5 & E6 & E7).
    exists up, n, s1, s2, key1, key2.
    assert (Mono : forall p p' x y s, carryPriv x y p = Ok p' -> last_secret (gc_cipherSuite (gr_context g)) p' (nextContext (gr_context g) th (gc_confirmedTranscriptHash (gr_context g))) up s ->
       last_secret (gc_cipherSuite (gr_context g)) p (nextContext (gr_context g) th (gc_confirmedTranscriptHash (gr_context g))) up s).
    { intros p p' x y s Hc (b & u & a & ct & pk & s0 & F1 & F2 & F3 & F4 & F5). exists b, u, a, ct, pk, s0. splits; auto. eapply carryPriv_in; eauto. }
    assert (Eth : gc_treeHash ctx = th) by (rewrite A2; reflexivity). rewrite Eth.
    splits; auto.
    + exact (Mono _ _ _ _ _ Ec E4).
    + exact (Mono _ _ _ _ _ Ecm E5).
Qed.

Theorem same_commit_agree g m raw now now' ac ac' c c' g' m' : obtained g -> obtained m -> agree g m -> gr_pending m = gr_pending g ->
  accepts_commit g raw now ac c g' -> accepts_commit m raw now' ac' c' m' ->
  ac' = ac /\ c' = c /\ gr_pending m' = gr_pending g' /\
  gr_context m' = gr_context g' /\ gr_value m' = gr_value g' /\ gr_interimTranscriptHash m' = gr_interimTranscriptHash g' /\ gr_pskSecret m' = gr_pskSecret g' /\
  (agree g' m' \/ keys_collide g m c g').
Proof.
  intros O Om Ag Hp A B. pose proof Ag as (S1 & S2 & S3 & S4 & S5 & S6). pose proof (obtained_sane g O) as Sa. pose proof (obtained_sane m Om) as Sm.
  assert (Se : same_epoch g m) by (unfold same_epoch; splits; congruence).
  pose proof A as (Hca & Hb & _). pose proof B as (Hcb & Hb2 & _).
  assert (ac' = ac) by (eapply carries_fun; [exact Hcb|eapply carries_same; eauto]). subst ac'. assert (c' = c) by congruence. subst c'. clear Hb2.
  apply accepts_commit_inv in A as [Hau Ep]. apply accepts_commit_inv in B as [_ Em].
  apply processCommit_ok in Ep. destruct Ep as (c1 & pr & sn & h & t & Hb1 & Hck & Ha & Hf). assert (c1 = c) by congruence. subst c1.
  apply processCommit_ok in Em. destruct Em as (c1 & prm & snm & hm & tm & Hb2 & Hckm & Ham & Hfm). assert (c1 = c) by congruence. subst c1.
  unfold checkCommit in Hck, Hckm. rewrite Hp, S1, Hck in Hckm. apply Ok_inj in Hckm. apply pair_equal_spec in Hckm as [<- <-].
  pose proof (proj1 (sane_consistent _ Sa)) as Pr. destruct (applyH_value_ok _ _ _ _ _ _ Pr Ha) as [V P]. fold (gr_value g) in V.
  pose proof (proj1 (sane_consistent _ Sm)) as Prm. destruct (applyH_value_ok _ _ _ _ _ _ Prm Ham) as [Vm Pm]. fold (gr_value m) in Vm.
  rewrite S2, V in Vm. apply Ok_inj in Vm.
  pose proof (vapply_shape _ _ _ _ (sane_shape _ Sa) V) as W.
  destruct (finish_same g m ac c h t hm tm now now' g' m' Ag P Pm W (eq_sym Vm) Hf Hfm) as (E1 & E2 & E3 & E4 & E5 & E6). splits; auto.
Qed.

(** ** One message, whatever it is *)
Theorem same_message_agree g m raw now now' d d' g' m' : obtained g -> obtained m -> agree g m -> gr_pending m = gr_pending g ->
  unmarshalAndProcessMessage g raw now = (g', Ok d) -> unmarshalAndProcessMessage m raw now' = (m', Ok d') ->
  d' = d /\ gr_pending m' = gr_pending g' /\ gr_context m' = gr_context g' /\ gr_value m' = gr_value g' /\
  (agree g' m' \/ exists ac c, accepts_commit g raw now ac c g' /\ accepts_commit m raw now' ac c m' /\ keys_collide g m c g').
Proof.
  intros O Om Ag Hp A B. pose proof Ag as (S1 & S2 & S3 & S4 & S5 & S6).
  assert (Se : same_epoch g m) by (unfold same_epoch; splits; congruence).
  pose proof (acted_on g raw now) as Ga. rewrite A in Ga. destruct Ga as (ac & Hc & _ & _ & Hx); [auto|].
  pose proof (acted_on m raw now') as Gm. rewrite B in Gm. destruct Gm as (ac' & Hc' & _ & _ & Hy); [auto|].
  assert (ac' = ac) by (eapply carries_fun; [exact Hc'|eapply carries_same; eauto]). subst ac'.
  destruct (fc_body (ac_content ac)) as [x|x|c] eqn:Eb.
  - destruct Hx as (-> & E & _). destruct Hy as (-> & E' & _). apply Ok_inj in E. apply Ok_inj in E'. subst d d'. splits; auto.
  - unfold noData, processProposal in Hx, Hy. rewrite Eb in Hx, Hy. rewrite S1 in Hy. destruct (generateProposalRef _ ac) as [ref|e|e|]; cbn in Hx, Hy; try discriminate.
    apply pair_equal_spec in Hx as [-> E]. apply pair_equal_spec in Hy as [-> E']. apply Ok_inj in E. apply Ok_inj in E'. subst d d'.
    unfold agree, gr_value. cbn. rewrite Hp. splits; auto.
  - unfold noData in Hx, Hy. destruct (processCommit g ac [] [] now) as [g1 r1] eqn:E1. destruct (processCommit m ac [] [] now') as [m1 r2] eqn:E2.
    cbn [fst snd] in Hx, Hy. apply pair_equal_spec in Hx as [<- E]. apply pair_equal_spec in Hy as [<- E'].
    destruct r1 as [[]|?|?|]; try discriminate. destruct r2 as [[]|?|?|]; try discriminate. cbn in E, E'. apply Ok_inj in E. apply Ok_inj in E'. subst d d'.
    assert (Aa : accepts_commit g raw now ac c g') by (splits; auto). assert (Am : accepts_commit m raw now' ac c m') by (splits; auto).
    destruct (same_commit_agree g m raw now now' ac ac c c g' m' O Om Ag Hp Aa Am) as (_ & _ & F1 & F2 & F3 & F4 & F5 & F6). splits; auto.
    destruct F6 as [F6|F6]; [now left|right]. eauto.
Qed.

Lemma both_obtained g m raws g' m' : both_accept g m raws g' m' -> obtained g -> obtained m -> obtained g' /\ obtained m'.
Proof. induction 1; intros O Om; [auto|]. destruct (IHboth_accept O Om) as [O1 O2]. split; [eapply obtained_message; [exact O1|eassumption]|eapply obtained_message; [exact O2|eassumption]]. Qed.

Theorem same_messages_agree g m raws g' m' : obtained g -> obtained m -> agree g m -> gr_pending m = gr_pending g -> both_accept g m raws g' m' ->
  (agree g' m' /\ gr_pending m' = gr_pending g') \/
  exists before raw after g1 m1 now now' ac c g2 m2, raws = before ++ raw :: after /\ both_accept g m before g1 m1 /\ agree g1 m1 /\
    accepts_commit g1 raw now ac c g2 /\ accepts_commit m1 raw now' ac c m2 /\ keys_collide g1 m1 c g2.
Proof.
  intros O Om Ag Hp H. induction H as [g m|g m raws g1 m1 raw now now' d d' g' m' H IH Eg Em]; [auto|].
  destruct (both_obtained _ _ _ _ _ H O Om) as [O1 O2].
  destruct (IH O Om Ag Hp) as [[A1 P1]|(b & r & a & g2 & m2 & n1 & n2 & ac & c & g3 & m3 & -> & R)].
  - destruct (same_message_agree g1 m1 raw now now' d d' g' m' O1 O2 A1 P1 Eg Em) as (_ & P' & _ & _ & [A'|(ac & c & F1 & F2 & F3)]); [auto|].
    right. exists raws, raw, [], g1, m1, now, now', ac, c, g', m'. splits; auto.
  - right. exists b, r, (a ++ [raw]), g2, m2, n1, n2, ac, c, g3, m3. split; [now rewrite <- app_assoc|exact R].
Qed.
End WithCrypto.
