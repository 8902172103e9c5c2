(** Members in agreement accept the same commits. *)
From Verif Require Export HoldFacts EpochFacts SoundFacts.

(** ** One tree after the proposals *)
Lemma replaced_fun {A} k (t t1 t2 : list (option A)) j n : replaced k t t1 j n -> replaced k t t2 j n -> t1 = t2.
Proof.
  intros (F1 & _ & A1 & B1 & O1) (F2 & _ & A2 & B2 & O2). apply (full_ext k); auto. intros p Hp.
  destruct (path_eq_dec p (leafPath k j)) as [->|N1]; [congruence|]. destruct (above_dec p (leafPath k j)) as [X|X]; [rewrite B1, B2|rewrite O1, O2]; auto.
Qed.
Lemma added_fun k t t1 t2 j l : added k t t1 j l -> added k t t2 j l -> t1 = t2.
Proof.
  intros (F1 & _ & A1 & B1 & O1) (F2 & _ & A2 & B2 & O2). apply (full_ext k); [apply F1|apply F2|]. intros p Hp.
  destruct (path_eq_dec p (leafPath k j)) as [->|N1]; [congruence|]. destruct (above_dec p (leafPath k j)) as [X|X]; [rewrite B1, B2|rewrite O1, O2]; auto.
Qed.
Lemma truncated_fun {A} k (t t1 t2 : list (option A)) : truncated k t t1 -> truncated k t t2 -> t1 = t2.
Proof.
  intros [[-> B1]|(k1 & L1 & _ & -> & I1 & li1 & X1 & Y1 & Z1)] [[-> B2]|(k2 & L2 & _ & -> & I2 & li2 & X2 & Y2 & Z2)]; auto.
  - exfalso. apply Y2. apply B1. eapply N.lt_le_trans; [exact X2|]. now apply leaf_count_le.
  - exfalso. apply Y1. apply B2. eapply N.lt_le_trans; [exact X1|]. now apply leaf_count_le.
  - assert (k1 = k2) as ->; [|reflexivity].
    assert (H1 : li1 < leaf_count k2) by (apply I2; [eapply N.lt_le_trans; [exact X1|]; now apply leaf_count_le|assumption]).
    assert (H2 : li2 < leaf_count k1) by (apply I1; [eapply N.lt_le_trans; [exact X2|]; now apply leaf_count_le|assumption]).
    destruct (Nat.lt_trichotomy k1 k2) as [H|[H|H]]; auto; [apply Z2 in H|apply Z1 in H]; lia.
Qed.
Lemma leftmost_fun t a b : leftmost_free t a -> leftmost_free t b -> a = b.
Proof.
  intros [A1 A2] [B1 B2]. destruct (N.lt_trichotomy a b) as [H|[H|H]]; auto; [apply B2 in H|apply A2 in H]; contradiction.
Qed.
Lemma one_by_one_fun {A} (step : ratchetTree -> A -> ratchetTree -> Prop) : (forall t x a b, step t x a -> step t x b -> a = b) ->
  forall t l a, one_by_one step t l a -> forall b, one_by_one step t l b -> a = b.
Proof.
  intros F t l a H. induction H as [t|t x t1 l a Hs H IH]; intros b Hb; inversion Hb; subst; [reflexivity|]. apply IH.
  match goal with X : step t x ?u, Y : one_by_one _ ?u _ _ |- _ => rewrite (F _ _ _ _ Hs X); exact Y end.
Qed.
Lemma joined_grows t l t' k t0 li : leftmost_free t li -> shaped k t0 -> added k t0 t' li l ->
  (t0 = t \/ t0 = grown t /\ forall j, 2 * j < lenN t -> leaf_at t j <> None) -> t0 = if 2 * li <? lenN t then t else grown t.
Proof.
  intros [Hf _] Sh A [->|[-> H]].
  - destruct (N.ltb_spec (2 * li) (lenN t)) as [|Hge]; [reflexivity|]. exfalso. destruct A as (_ & Hli & _). pose proof (leafPath_number k li Hli) as E.
    pose proof (number_lt k _ (leafPath_in k li)) as Hlt. rewrite E in Hlt. rewrite (proj2 (shaped_full _ _ Sh)) in Hge. lia.
  - destruct (N.ltb_spec (2 * li) (lenN t)) as [Hlt|]; [|reflexivity]. now destruct (H li Hlt).
Qed.
Theorem after_proposals_fun t ps a b : after_proposals t ps a -> after_proposals t ps b -> a = b.
Proof.
  intros (a1 & a2 & A1 & A2 & A3) (b1 & b2 & B1 & B2 & B3).
  assert (a1 = b1) as <-.
  { refine (one_by_one_fun updated _ _ _ _ A1 _ B1). intros u [j n] x y (k & Sh & R) (k' & Sh' & R'). rewrite (height_unique k' k u (shaped_full _ _ Sh') (shaped_full _ _ Sh)) in R'.
    eapply replaced_fun; eauto. }
  assert (a2 = b2) as <-.
  { refine (one_by_one_fun removed _ _ _ _ A2 _ B2). intros u j x y (k & u1 & Sh & R & T) (k' & u2 & Sh' & R' & T').
    assert (k' = k) as -> by (exact (height_unique k' k u (shaped_full _ _ Sh') (shaped_full _ _ Sh))).
    rewrite (replaced_fun _ _ _ _ _ _ R' R) in T'. eapply truncated_fun; eauto. }
  refine (one_by_one_fun SpecCommitTree.joined _ _ _ _ A3 _ B3). intros u l x y (k & u0 & li & Hf & Sh & A & D) (k' & u0' & li' & Hf' & Sh' & A' & D').
  rewrite (leftmost_fun _ _ _ Hf' Hf) in *. assert (E : u0' = u0) by (rewrite (joined_grows u l x k u0 li), (joined_grows u l y k' u0' li); auto). subst u0'.
  assert (k' = k) as -> by (exact (height_unique k' k u0 (shaped_full _ _ Sh') (shaped_full _ _ Sh))). eapply added_fun; eauto.
Qed.

Section WithCrypto.
Context {C : crypto}.

(** ** The same path on another heap *)
Lemma processPath_same g m li path h t h2 t2 priv priv2 now h1 t1 th z p1 : gr_context m = gr_context g -> proper h t -> proper h2 t2 -> well_shaped (deref h t) -> deref h2 t2 = deref h t ->
  processPath g li path h t priv now = Ok (h1, t1, th, z, p1) ->
  exists h3 t3, deref h3 t3 = deref h1 t1 /\
    processPath m li path h2 t2 priv2 now =
      (let! (z, p) := decryptPathSecrets (gc_cipherSuite (gr_context g)) (deref h1 t1) (nextContext (gr_context g) th (gc_confirmedTranscriptHash (gr_context g))) li (gr_myLeafIndex m) path priv2 in
       Ok (h3, t3, th, z, p)).
Proof.
  intros Ec P P2 W V H. unfold processPath in *. cbv zeta in *. rewrite Ec, V.
  apply rbind_guard in H. destruct H as [Gs H]. rewrite Gs. cbn [guard rbind]. apply rbind_ok in H. destruct H as (sn & -> & H). cbn [rbind].
  apply rbind_ok in H. destruct H as ([sk ek] & -> & H). cbn [rbind]. destruct sn as [sn|]; [|discriminate].
  apply rbind_ok in H. destruct H as (creds & -> & H). cbn [rbind]. apply rbind_ok in H. destruct H as ([] & -> & H).
  cbn [rbind].
  apply rbind_ok in H. destruct H as ([] & -> & H). cbn [rbind]. apply rbind_ok in H. destruct H as ([h3 t3] & Em & H).
  destruct W as [W|(k & Sh)].
  { exfalso. unfold mergeUpdatePathH in Em. apply rbind_ok in Em. destruct Em as (v & Em & _). rewrite W in Em. now apply merge_nil in Em. }
  destruct (mergeH_inv _ k h t li path h3 t3 P Sh Em) as (E3 & _).
  assert (Sh2 : shaped k (deref h2 t2)) by now rewrite V.
  destruct (proj1 (mergeH_value (gc_cipherSuite (gr_context g)) k h2 t2 li path P2 Sh2) (deref h3 t3)) as (h4 & t4 & Em4 & V1 & _); [now rewrite V|]. rewrite Em4. cbn [rbind]. rewrite V1.
  apply rbind_ok in H. destruct H as (th' & Eh & H). rewrite Eh. cbn [rbind]. apply rbind_ok in H. destruct H as ([z' p'] & Ed & H). apply Ok_inj in H. inversion H; subst.
  exists h4, t4. split; [assumption|]. reflexivity.
Qed.

Theorem members_follow g m raw now ac c g' li ps : crypto_ok C -> obtained g -> obtained m -> agree g m -> gr_pending m = gr_pending g ->
  accepts_commit g raw now ac c g' -> fc_sender (ac_content ac) = SMember li -> commits g li c ps ->
  match c_path c with
  | None => True
  | Some up => exists k t new, prescribed_path g g' ps li up k t new /\ follows_path g li k t new /\ follows_path m li k t new
  end ->
  exists m', unmarshalAndProcessMessage m raw now = (m', Ok None) /\ agree g' m' /\ gr_pending m' = gr_pending g' /\
    gr_myLeafIndex m' = gr_myLeafIndex m /\ (c_path c <> None -> same_leaf_key m m').
Proof.
  intros OK O Om (S1 & S2 & S3 & S4 & S5 & S6) Hp A Hs Hc Hpath. pose proof (obtained_sane g O) as Sa. pose proof (obtained_sane m Om) as Sm.
  pose proof (obtained_state g O) as Mg. pose proof (obtained_state m Om) as Mm.
  pose proof (accepts_commit_inv _ _ _ _ _ _ A) as [_ Ep]. pose proof A as (_ & Hb & _).
  assert (Se : same_epoch m g) by (unfold same_epoch; splits; congruence).
  rewrite (same_commit m g raw now ac c g' Se A).
  apply processCommit_ok in Ep. destruct Ep as (c' & proposals & senders & h & t & Hb' & Hck & Ha & Hf). assert (c' = c) by congruence. subst c'.
  rewrite Hs in Hck. cbn [sender_leafIndex] in Hck. assert (Ek : checkCommit m li c = Ok (proposals, senders)) by (unfold checkCommit in *; now rewrite Hp, S1).
  destruct (checkCommit_pairs _ _ _ _ _ Hck) as (ps' & Hc2 & Ep1 & Ep2 & Hn). apply (proj2 (resolveProposals_spec _ _ _ _)) in Hc2. pose proof (proj2 (resolveProposals_spec _ _ _ _) Hc) as Hc3.
  rewrite Hc2 in Hc3. apply Ok_inj in Hc3. subst ps' proposals senders.
  pose proof (proj1 (sane_consistent _ Sa)) as Pr. destruct (applyH_value_ok _ _ _ _ _ _ Pr Ha) as [V P]. fold (gr_value g) in V.
  pose proof (proj1 (sane_consistent _ Sm)) as Prm. pose proof V as Vm. rewrite <- S2 in Vm. unfold gr_value in Vm.
  destruct (applyH_of_value _ _ _ _ _ Prm Vm) as (h2 & t2 & Ha2 & V2 & P2).
  pose proof (vapply_shape _ _ _ _ (sane_shape _ Sa) V) as W.
  pose proof (vapply_one_by_one _ _ _ (sane_shape _ Sa) V) as AP.
  unfold processCommit. rewrite Hb, Hs. cbn [sender_leafIndex]. rewrite Ek, Ha2.
  destruct (finishCommit_ok _ _ _ _ _ _ _ _ _ Hf) as (priv & nh & h1 & t1 & th & z & priv1 & ctx & it & psk & es & ini & Ec & Enh & Hpp & Hne & Eg').
  rewrite Hs in Hpp. cbn [sender_leafIndex] in Hpp.
  destruct (carryPriv_ok (length (gr_tree m)) (length t2) (gr_privTree m) (proj2 (sane_consistent _ Sm))) as (pm & Ecm & Lm).
  assert (Fin : exists h3 t3 pm1, finishCommit m ac c h2 t2 [] [] now = Ok (mkGroup h3 t3 ctx it psk es ini (gr_myLeafIndex m) pm1 (gr_signaturePriv m) []) /\ deref h3 t3 = deref h1 t1 /\
     (c_path c = None \/ option_map ln_encryptionKey (leaf_at (deref h1 t1) (gr_myLeafIndex m)) = option_map ln_encryptionKey (leaf_at (gr_value m) (gr_myLeafIndex m)))).
  { unfold finishCommit. cbv zeta. rewrite S1, Ecm. cbn [rbind]. rewrite Enh. cbn [rbind].
    assert (NE : nextEpoch m ac th z [] [] = nextEpoch g ac th z [] []) by (unfold nextEpoch; now rewrite S1, S3, S6).
    destruct (c_path c) as [up|].
    - destruct Hpath as (k & t0 & new & (AP0 & Sh & LM & z0 & UP) & FG & FM). rewrite (after_proposals_fun _ _ _ _ AP0 AP) in *. clear AP0 t0.
      rewrite Hs. cbn [sender_leafIndex].
      destruct (processPath_same g m li up h t h2 t2 priv pm now h1 t1 th z priv1 S1 P P2 W V2 Hpp) as (h3 & t3 & E3 & ->).
      apply processPath_all in Hpp. destruct Hpp as (Hm & Hth & Hd). destruct (mergeH_shaped _ _ _ _ _ _ _ _ P Sh Hm) as [Sh' Mgd].
      assert (Evg : gr_value g' = deref h1 t1) by (rewrite Eg'; reflexivity). rewrite Evg in UP.
      assert (Eth : th = tree_hash (gc_cipherSuite (gr_context g)) k (deref h1 t1) [] k []).
      { destruct (shaped_hash _ _ _ (or_intror (ex_intro _ k Sh')) Hth) as (k' & Sk & ->). now rewrite (height_unique k' k _ (shaped_full _ _ Sk) (shaped_full _ _ Sh')). }
      rewrite <- Eth in UP. change (next_context ?a ?b ?c) with (nextContext a b c) in UP.
      assert (One : forall x p, obtained x -> gr_context x = gr_context g -> gr_value x = gr_value g -> follows_path x li k (deref h t) new ->
        carryPriv (length (gr_value x)) (length (deref h t)) (gr_privTree x) = Ok p ->
        exists p', decryptPathSecrets (gc_cipherSuite (gr_context g)) (deref h1 t1) (nextContext (gr_context g) th (gc_confirmedTranscriptHash (gr_context g))) li (gr_myLeafIndex x) up p = Ok (z0, p') /\
          option_map ln_encryptionKey (leaf_at (deref h1 t1) (gr_myLeafIndex x)) = option_map ln_encryptionKey (leaf_at (gr_value x) (gr_myLeafIndex x))).
      { intros x p Ox Xc Xv (F1 & F2 & F3 & F4) Xp. pose proof (obtained_sane x Ox) as Sx. pose proof (obtained_state x Ox) as Mx.
        destruct (leaf_at (gr_value x) (gr_myLeafIndex x)) as [l|] eqn:El; [|now destruct (ms_in _ Mx)].
        destruct (leaf_at (deref h t) (gr_myLeafIndex x)) as [l'|] eqn:El'; [|discriminate]. cbn [option_map] in F3. injection F3 as F3.
        apply holds_its_number in F2; [|exact Mx|exact (sane_shape _ Sx)].
        assert (PF : HoldFacts.parents_from (gr_value x) (deref h t)) by (rewrite Xv; eapply HoldFacts.from_proposals; exact AP).
        pose proof (carried _ _ _ _ _ _ _ _ F2 PF W (ms_index _ Mx) El El' F3 Xp) as K. rewrite Xc in K.
        assert (Hr : gr_myLeafIndex x < leaf_count k) by (eapply member_in_array; [exact Sh|congruence]).
        apply (holds_number _ k) in K; [|exact Sh|exact Hr|apply (ms_index _ Mx)].
        destruct (decryptPathSecrets_ok (gc_cipherSuite (gr_context g)) k (deref h t) (deref h1 t1) new _ (designated li) (gr_myLeafIndex x) up z0 p OK Sh LM Sh' UP Hr F1) as (p' & Ed & _); [congruence|exact K|exact F4|].
        exists p'. split.
        - rewrite <- Ed. unfold decryptPathSecrets. now rewrite (nodeIndexOf_designated li), (nodeIndexOf_designated (designated li)), (designated_small (designated li)) by apply designated_lt.
        - destruct (merged_leaf _ _ _ _ _ _ Sh Sh' Mgd) as [_ E2]. rewrite E2 by assumption. rewrite El'. cbn [option_map]. now rewrite F3. }
      unfold gr_value in One. destruct (One g priv O eq_refl eq_refl FG) as (p' & Ed & _). { rewrite !length_deref. exact Ec. }
      rewrite Hd in Ed. apply Ok_inj in Ed. apply pair_equal_spec in Ed. destruct Ed as [-> _].
      destruct (One m pm Om S1 S2 FM) as (pm1 & Edm & Kl).
      { rewrite !length_deref. replace (length t) with (length t2); [exact Ecm|]. rewrite <- (length_deref h2 t2), V2, length_deref. reflexivity. }
      rewrite Edm. cbn [rbind]. rewrite NE, Hne. cbn [rbind]. exists h3, t3, pm1. splits; auto.
    - destruct Hpp as (-> & -> & Eth & -> & ->). rewrite V2, Eth. cbn [rbind]. rewrite NE, Hne. cbn [rbind]. exists h2, t2, pm. splits; auto. }
  destruct Fin as (h3 & t3 & pm1 & -> & V3 & Kl). eexists. split; [reflexivity|].
  rewrite Eg'. unfold agree, gr_value. cbn [gr_context gr_heap gr_tree gr_interimTranscriptHash gr_pskSecret gr_epochSecret gr_initSecret gr_pending gr_myLeafIndex].
  splits; auto. intros Np. unfold same_leaf_key, gr_value. cbn [gr_heap gr_tree gr_myLeafIndex]. destruct Kl as [Kn|Kl]; [contradiction|]. rewrite <- V3 in Kl. exact Kl.
Qed.

Theorem members_follow_keys g m raw now ac c g' li ps : crypto_ok C -> obtained g -> obtained m -> agree g m -> gr_pending m = gr_pending g ->
  accepts_commit g raw now ac c g' -> fc_sender (ac_content ac) = SMember li -> commits g li c ps ->
  match c_path c with
  | None => True
  | Some up => exists k t new, prescribed_path g g' ps li up k t new /\ follows_path g li k t new /\ follows_path m li k t new
  end ->
  exists m', unmarshalAndProcessMessage m raw now = (m', Ok None) /\ agree g' m' /\ gr_pending m' = gr_pending g' /\
    gr_myLeafIndex m' = gr_myLeafIndex m /\ (c_path c <> None -> holds_its_keys m').
Proof.
  intros OK O Om Ag Hp A Hs Hc Hpath. destruct (members_follow g m raw now ac c g' li ps OK O Om Ag Hp A Hs Hc Hpath) as (m' & E & A' & P' & I' & K).
  exists m'. splits; auto. intros Np. apply (message_holds m raw now m' (Ok None)); auto.
  destruct (c_path c) as [up|]; [|contradiction]. destruct Hpath as (k & t & new & _ & _ & F). apply F.
Qed.
End WithCrypto.
