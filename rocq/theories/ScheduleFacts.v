(** Facts about the key schedule. *)
From Verif Require Export SpecSchedule ModelFacts GroupFacts TreeFacts WireSpecFacts RfcFacts.

Lemma kdf_size_small d : hashSize d <= 64 /\ u16 (hashSize d).
Proof. destruct d; split; try reflexivity; cbn; lia. Qed.
Lemma hashSize_inj a b : hashSize a = hashSize b -> a = b.
Proof. destruct a, b; cbn; congruence. Qed.

Lemma map_fst_combine {A B} (l : list A) : forall m : list B, length l = length m -> map fst (combine l m) = l.
Proof. induction l as [|a l IH]; intros [|b m] H; try discriminate; auto. cbn. f_equal. apply IH. now injection H. Qed.
Lemma map_snd_combine {A B} (l : list A) : forall m : list B, length l = length m -> map snd (combine l m) = m.
Proof. induction l as [|a l IH]; intros [|b m] H; try discriminate; auto. cbn. f_equal. apply IH. now injection H. Qed.

Lemma putKdfLabel_inj l1 c1 n1 l2 c2 n2 e : u16 n1 -> u16 n2 ->
  putKdfLabel l1 c1 n1 = Ok e -> putKdfLabel l2 c2 n2 = Ok e -> l1 = l2 /\ c1 = c2 /\ n1 = n2.
Proof.
  intros U1 U2 H1 H2. unfold putKdfLabel in *.
  apply wapp_ok in H1, H2. destruct H1 as (a1 & b1 & A1 & B1 & ->), H2 as (a2 & b2 & A2 & B2 & E).
  destruct (u16_app_inj _ _ _ _ _ _ U1 U2 A1 A2 E) as [-> ->].
  apply wapp_ok in B1, B2. destruct B1 as (x1 & y1 & X1 & Y1 & ->), B2 as (x2 & y2 & X2 & Y2 & E2).
  destruct (opaque_app_inj _ _ _ _ _ _ X1 X2 E2) as [E3 ->].
  destruct (opaque_app_inj _ _ _ _ [] [] Y1 Y2 eq_refl) as [-> _].
  apply mlsLabel_inj in E3. auto.
Qed.

Section WithCrypto.
Context {C : crypto}.

Lemma expandWithLabel_ok cs s l c n r : expandWithLabel cs s l c n = Ok r ->
  exists d info, cipherSuiteDescriptions cs = Some d /\ putKdfLabel l c n = Ok info /\ n <= 255 * hashSize (sd_kdf d) /\
    r = cr_expand C (sd_kdf d) s info n.
Proof.
  unfold expandWithLabel. intros H. apply rbind_ok in H. destruct H as (info & Hi & H).
  apply rbind_ok in H. destruct H as (d & Hd & H). apply describe_ok in Hd.
  destruct (N.ltb_spec (255 * hashSize (sd_kdf d)) n); [discriminate|]. apply Ok_inj in H. exists d, info. auto.
Qed.

(** The length asked for is encoded in 16 bits. *)
Lemma expandWithLabel_u16 cs s l c n r : expandWithLabel cs s l c n = Ok r -> u16 n.
Proof.
  intros H. apply expandWithLabel_ok in H. destruct H as (d & info & _ & _ & Hn & _).
  pose proof (kdf_size_small (sd_kdf d)) as [? _]. unfold u16. lia.
Qed.

Lemma expandWithLabel_query cs s l c n r : expandWithLabel cs s l c n = Ok r -> r = answer (expandQuery cs s l c n).
Proof.
  intros H. apply expandWithLabel_ok in H. destruct H as (d & info & Hd & Hi & Hn & ->).
  unfold expandQuery. rewrite (kdfOf_some _ _ Hd), <- (writes_kdfLabel _ _ _ _ Hi). reflexivity.
Qed.

Lemma query_neq_dec (q1 q2 : query) : q1 = q2 \/ q1 <> q2.
Proof.
  assert (D : {q1 = q2} + {q1 <> q2}).
  { assert (forall a b : hashAlg, {a = b} + {a <> b}) by decide equality.
    pose proof bytes_eq_dec. pose proof N.eq_dec. decide equality. }
  destruct D; auto.
Qed.

(** Equal answers of comparable calls: equal calls or a collision *)
Lemma equal_or_collision q1 q2 : comparable q1 q2 -> answer q1 = answer q2 -> q1 = q2 \/ collision q1 q2.
Proof. intros Hc He. destruct (query_neq_dec q1 q2); [auto|right; repeat split; auto]. Qed.

Lemma expand_binding cs1 s1 l1 c1 cs2 s2 l2 c2 n r :
  kdfOf cs1 = kdfOf cs2 ->
  expandWithLabel cs1 s1 l1 c1 n = Ok r -> expandWithLabel cs2 s2 l2 c2 n = Ok r ->
  (s1 = s2 /\ l1 = l2 /\ c1 = c2) \/ collision (expandQuery cs1 s1 l1 c1 n) (expandQuery cs2 s2 l2 c2 n).
Proof.
  intros Hk H1 H2. pose proof (expandWithLabel_u16 _ _ _ _ _ _ H1) as U.
  pose proof (expandWithLabel_query _ _ _ _ _ _ H1) as Q1. pose proof (expandWithLabel_query _ _ _ _ _ _ H2) as Q2.
  apply expandWithLabel_ok in H1, H2. destruct H1 as (d1 & i1 & D1 & I1 & N1 & R1), H2 as (d2 & i2 & D2 & I2 & N2 & R2).
  destruct (equal_or_collision (expandQuery cs1 s1 l1 c1 n) (expandQuery cs2 s2 l2 c2 n)) as [E|]; [cbn; auto|congruence| |auto].
  left. unfold expandQuery in E. rewrite <- (writes_kdfLabel _ _ _ _ I1), <- (writes_kdfLabel _ _ _ _ I2) in E. injection E as E1 E2 E3. subst.
  destruct (putKdfLabel_inj _ _ _ _ _ _ _ U U I1 I2) as (-> & -> & _). auto.
Qed.

Lemma extractSize_some cs n : extractSize cs = Ok n -> exists d, cipherSuiteDescriptions cs = Some d /\ n = secretSize cs.
Proof.
  unfold extractSize. intros H. apply rmap_ok in H. destruct H as (d & Hd & Hn). apply describe_ok in Hd. exists d.
  unfold secretSize. rewrite (kdfOf_some _ _ Hd). auto.
Qed.
Lemma extract_some cs a b r : extract cs a b = Ok r -> exists d, cipherSuiteDescriptions cs = Some d /\ r = answer (QExtract (kdfOf cs) a b).
Proof.
  unfold extract. intros H. apply rbind_ok in H. destruct H as (d & Hd & H). apply describe_ok in Hd. apply Ok_inj in H.
  exists d. now rewrite (kdfOf_some _ _ Hd).
Qed.

(** ** The epoch and joiner secrets *)
Lemma schedule_binding (label : bytes) f ctx1 a1 b1 ctx2 a2 b2 s :
  crypto_ok C ->
  (forall ctx a b, f ctx a b =
     let! extracted := extract (gc_cipherSuite ctx) a b in
     let! raw := putGroupContext ctx in
     let! nh := extractSize (gc_cipherSuite ctx) in
     expandWithLabel (gc_cipherSuite ctx) extracted label raw nh) ->
  wf_groupContext ctx1 -> wf_groupContext ctx2 ->
  f ctx1 a1 b1 = Ok s -> f ctx2 a2 b2 = Ok s ->
  (ctx1 = ctx2 /\ a1 = a2 /\ b1 = b2) \/ collide (scheduleQueries label ctx1 a1 b1) (scheduleQueries label ctx2 a2 b2).
Proof.
  intros OK Hf W1 W2 H1 H2. rewrite Hf in H1, H2.
  apply rbind_ok in H1. destruct H1 as (x1 & X1 & H1). apply rbind_ok in H1. destruct H1 as (r1 & R1 & H1).
  apply rbind_ok in H1. destruct H1 as (n1 & N1 & H1).
  apply rbind_ok in H2. destruct H2 as (x2 & X2 & H2). apply rbind_ok in H2. destruct H2 as (r2 & R2 & H2).
  apply rbind_ok in H2. destruct H2 as (n2 & N2 & H2).
  apply extractSize_some in N1, N2. destruct N1 as (d1 & D1 & ->), N2 as (d2 & D2 & ->).
  apply extract_some in X1, X2. destruct X1 as (_ & _ & ->), X2 as (_ & _ & ->).
  pose proof (expandWithLabel_query _ _ _ _ _ _ H1) as Q1. pose proof (expandWithLabel_query _ _ _ _ _ _ H2) as Q2.
  assert (Ek : kdfOf (gc_cipherSuite ctx1) = kdfOf (gc_cipherSuite ctx2)).
  { apply hashSize_inj. apply (f_equal lenN) in Q1, Q2. unfold expandQuery, answer in Q1, Q2.
    rewrite (ok_expand C OK) in Q1. rewrite (ok_expand C OK) in Q2. unfold secretSize in *. congruence. }
  assert (En : secretSize (gc_cipherSuite ctx1) = secretSize (gc_cipherSuite ctx2)) by (unfold secretSize; congruence).
  assert (I1 : enc_groupContext ctx1 = r1) by (symmetry; exact (writes_groupContext _ _ R1)).
  assert (I2 : enc_groupContext ctx2 = r2) by (symmetry; exact (writes_groupContext _ _ R2)).
  rewrite <- En in H2. destruct (expand_binding _ _ _ _ _ _ _ _ _ _ Ek H1 H2) as [(E1 & _ & E2)|HC].
  - subst r2. destruct (app_inj_by _ _ _ groupContext_RT ctx1 ctx2 _ _ [] [] W1 W2 R1 R2 ltac:(congruence)) as [-> _].
    destruct (equal_or_collision (QExtract (kdfOf (gc_cipherSuite ctx2)) a1 b1) (QExtract (kdfOf (gc_cipherSuite ctx2)) a2 b2)) as [E|HC];
      [reflexivity|exact E1| |].
    + left. injection E as -> ->. auto.
    + right. exists (QExtract (kdfOf (gc_cipherSuite ctx2)) a1 b1), (QExtract (kdfOf (gc_cipherSuite ctx2)) a2 b2).
      split; [left; reflexivity|]. split; [left; reflexivity|exact HC].
  - right. eexists. eexists. split; [right; left; reflexivity|]. split; [right; left; reflexivity|].
    rewrite I1, I2. rewrite <- En. exact HC.
Qed.

Lemma epoch_secret_binding ctx1 joiner1 psk1 ctx2 joiner2 psk2 s :
  crypto_ok C -> wf_groupContext ctx1 -> wf_groupContext ctx2 ->
  extractEpochSecret ctx1 joiner1 psk1 = Ok s -> extractEpochSecret ctx2 joiner2 psk2 = Ok s ->
  (ctx1 = ctx2 /\ joiner1 = joiner2 /\ psk1 = psk2) \/
  collide (scheduleQueries (str "epoch") ctx1 psk1 joiner1) (scheduleQueries (str "epoch") ctx2 psk2 joiner2).
Proof.
  intros OK W1 W2 H1 H2.
  destruct (schedule_binding (str "epoch") (fun c a b => extractEpochSecret c b a) ctx1 psk1 joiner1 ctx2 psk2 joiner2 s) as [(-> & -> & ->)|H]; auto.
Qed.
Lemma joiner_secret_binding ctx1 init1 commit1 ctx2 init2 commit2 s :
  crypto_ok C -> wf_groupContext ctx1 -> wf_groupContext ctx2 ->
  extractJoinerSecret ctx1 init1 commit1 = Ok s -> extractJoinerSecret ctx2 init2 commit2 = Ok s ->
  (ctx1 = ctx2 /\ init1 = init2 /\ commit1 = commit2) \/
  collide (scheduleQueries (str "joiner") ctx1 commit1 init1) (scheduleQueries (str "joiner") ctx2 commit2 init2).
Proof.
  intros OK W1 W2 H1 H2.
  destruct (schedule_binding (str "joiner") (fun c a b => extractJoinerSecret c b a) ctx1 commit1 init1 ctx2 commit2 init2 s) as [(-> & -> & ->)|H]; auto.
Qed.

(** ** The PSK secret *)
Lemma putPskLabel_inj id1 i1 c1 id2 i2 c2 e : wf_pskID id1 -> wf_pskID id2 -> u16 i1 -> u16 i2 -> u16 c1 -> u16 c2 ->
  putPskLabel id1 i1 c1 = Ok e -> putPskLabel id2 i2 c2 = Ok e -> id1 = id2 /\ i1 = i2 /\ c1 = c2.
Proof.
  intros W1 W2 I1 I2 C1 C2 H1 H2. unfold putPskLabel in *.
  apply wapp_ok in H1, H2. destruct H1 as (a1 & b1 & A1 & B1 & ->), H2 as (a2 & b2 & A2 & B2 & E).
  destruct (app_inj_by _ _ _ pskID_RT id1 id2 _ _ _ _ W1 W2 A1 A2 E) as [-> ->].
  apply wapp_ok in B1, B2. destruct B1 as (x1 & y1 & X1 & Y1 & ->), B2 as (x2 & y2 & X2 & Y2 & E2).
  destruct (u16_app_inj _ _ _ _ _ _ I1 I2 X1 X2 E2) as [-> ->].
  destruct (u16_app_inj _ _ _ _ [] [] C1 C2 Y1 Y2 eq_refl) as [-> _]. auto.
Qed.

Lemma pskLoop_snoc cs count l : forall i b id psk s,
  i + lenN l < 65536 -> count < 65536 ->
  pskLoop cs (secretSize cs) count i b (l ++ [(id, psk)]) = Ok s ->
  exists b' raw input, pskLoop cs (secretSize cs) count i b l = Ok b' /\
    putPskLabel id (i + lenN l) count = Ok raw /\
    expandWithLabel cs (answer (QExtract (kdfOf cs) psk (zeroes (secretSize cs)))) (str "derived psk") raw (secretSize cs) = Ok input /\
    s = answer (QExtract (kdfOf cs) b' input) /\
    pskListQueries cs count i b (l ++ [(id, psk)]) = pskListQueries cs count i b l ++ pskQueries cs count (i + lenN l) b' id psk.
Proof.
  induction l as [|[id0 psk0] l IH]; intros i b id psk s Hi Hc H.
  - cbn [app pskLoop] in H. change (lenN (@nil (preSharedKeyID * bytes))) with 0 in *. rewrite N.add_0_r in *.
    rewrite !N.mod_small in H by lia.
    apply rbind_ok in H. destruct H as (x & X & H). apply extract_some in X. destruct X as (d & D & ->).
    apply rbind_ok in H. destruct H as (raw & R & H). apply rbind_ok in H. destruct H as (input & I & H).
    apply rbind_ok in H. destruct H as (s' & S' & H). apply extract_some in S'. destruct S' as (_ & _ & ->).
    apply Ok_inj in H. exists b, raw, input. cbn [pskLoop app pskListQueries]. rewrite app_nil_r.
    splits; auto. 
  - cbn [app pskLoop] in H. assert (HL : lenN ((id0, psk0) :: l) = lenN l + 1) by (unfold lenN; cbn [length]; lia).
    apply rbind_ok in H. destruct H as (x & X & H).
    apply rbind_ok in H. destruct H as (raw & R & H). apply rbind_ok in H. destruct H as (input & I & H).
    apply rbind_ok in H. destruct H as (s' & S' & H).
    pose proof (IH (i + 1) s' id psk s ltac:(lia) Hc H) as (b' & raw' & input' & HB & HR & HI & HS & HQ).
    exists b', raw', input'. replace (i + lenN ((id0, psk0) :: l)) with (i + 1 + lenN l) by lia.
    splits; auto.
    + cbn [pskLoop]. rewrite X. cbn [rbind]. rewrite R. cbn [rbind]. rewrite I. cbn [rbind]. rewrite S'. exact HB.
    + cbn [app pskListQueries]. rewrite <- app_assoc. f_equal.
      cbn [last pskQueries]. rewrite !N.mod_small in R by lia.
      apply extract_some in X. destruct X as (_ & _ & ->). apply extract_some in S'. destruct S' as (_ & _ & ->).
      apply expandWithLabel_query in I. rewrite <- (writes_pskLabel _ _ _ _ R). change zeros with zeroes in I. rewrite <- I. exact HQ.
Qed.

Lemma collide_app_l l1 l2 m1 m2 : collide l1 l2 -> collide (l1 ++ m1) (l2 ++ m2).
Proof. intros (q1 & q2 & H1 & H2 & HC). exists q1, q2. rewrite !in_app_iff. auto. Qed.
Lemma collide_app_r l1 l2 m1 m2 : collide m1 m2 -> collide (l1 ++ m1) (l2 ++ m2).
Proof. intros (q1 & q2 & H1 & H2 & HC). exists q1, q2. rewrite !in_app_iff. auto. Qed.

(** The last step of two lists with the same result *)
Lemma psk_last cs count1 count2 i1 i2 b1 b2 id1 id2 psk1 psk2 raw1 raw2 in1 in2 :
  wf_pskID id1 -> wf_pskID id2 -> u16 i1 -> u16 i2 -> u16 count1 -> u16 count2 ->
  putPskLabel id1 i1 count1 = Ok raw1 -> putPskLabel id2 i2 count2 = Ok raw2 ->
  expandWithLabel cs (answer (QExtract (kdfOf cs) psk1 (zeroes (secretSize cs)))) (str "derived psk") raw1 (secretSize cs) = Ok in1 ->
  expandWithLabel cs (answer (QExtract (kdfOf cs) psk2 (zeroes (secretSize cs)))) (str "derived psk") raw2 (secretSize cs) = Ok in2 ->
  answer (QExtract (kdfOf cs) b1 in1) = answer (QExtract (kdfOf cs) b2 in2) ->
  (b1 = b2 /\ id1 = id2 /\ i1 = i2 /\ count1 = count2 /\ psk1 = psk2) \/
  collide (pskQueries cs count1 i1 b1 id1 psk1) (pskQueries cs count2 i2 b2 id2 psk2).
Proof.
  intros W1 W2 I1 I2 C1 C2 R1 R2 E1 E2 E. unfold pskQueries. rewrite <- (writes_pskLabel _ _ _ _ R1), <- (writes_pskLabel _ _ _ _ R2).
  pose proof (expandWithLabel_query _ _ _ _ _ _ E1) as Q1. pose proof (expandWithLabel_query _ _ _ _ _ _ E2) as Q2.
  destruct (equal_or_collision (QExtract (kdfOf cs) b1 in1) (QExtract (kdfOf cs) b2 in2)) as [EE|HC]; [reflexivity|exact E| |].
  - injection EE as -> Ein. rewrite <- Ein in E2.
    destruct (expand_binding _ _ _ _ _ _ _ _ _ _ eq_refl E1 E2) as [(ES & _ & ER)|HC].
    + rewrite <- ER in R2. destruct (putPskLabel_inj _ _ _ _ _ _ _ W1 W2 I1 I2 C1 C2 R1 R2) as (-> & -> & ->).
      destruct (equal_or_collision (QExtract (kdfOf cs) psk1 (zeroes (secretSize cs))) (QExtract (kdfOf cs) psk2 (zeroes (secretSize cs)))) as [EE|HC];
        [reflexivity|exact ES| |].
      * injection EE as ->. left. auto 6.
      * right. eexists. eexists. split; [left; reflexivity|]. split; [left; reflexivity|exact HC].
    + right. eexists. eexists. split; [right; left; reflexivity|]. split; [right; left; reflexivity|exact HC].
  - right. eexists. eexists. split; [right; right; left; reflexivity|]. split; [right; right; left; reflexivity|].
    rewrite <- Q1, <- Q2. exact HC.
Qed.

Lemma pskLoop_binding cs count l1 : forall l2 s, count < 65536 -> lenN l1 = lenN l2 -> lenN l1 <= count ->
  Forall (fun x => wf_pskID (fst x)) l1 -> Forall (fun x => wf_pskID (fst x)) l2 ->
  pskLoop cs (secretSize cs) count 0 (zeroes (secretSize cs)) l1 = Ok s ->
  pskLoop cs (secretSize cs) count 0 (zeroes (secretSize cs)) l2 = Ok s ->
  l1 = l2 \/ collide (pskListQueries cs count 0 (zeroes (secretSize cs)) l1) (pskListQueries cs count 0 (zeroes (secretSize cs)) l2).
Proof.
  induction l1 as [|[id1 psk1] l1 IH] using rev_ind; intros l2 s Hc HL HB W1 W2 H1 H2.
  - destruct l2; [auto|discriminate].
  - destruct l2 as [|[id2 psk2] l2 _] using rev_ind; [rewrite lenN_app in HL; unfold lenN in HL; cbn [length] in HL; lia|].
    rewrite !lenN_app in HL. rewrite lenN_app in HB.
    assert (HL' : lenN l1 = lenN l2) by (unfold lenN in *; cbn [length] in *; lia).
    assert (HB' : lenN l1 < count) by (unfold lenN in *; cbn [length] in *; lia).
    apply Forall_app in W1, W2. destruct W1 as [W1 V1], W2 as [W2 V2]. inversion_clear V1. inversion_clear V2. cbn [fst] in *.
    destruct (pskLoop_snoc cs count l1 0 _ _ _ _ ltac:(lia) Hc H1) as (b1 & r1 & n1 & HB1 & HR1 & HI1 & HS1 & HQ1).
    destruct (pskLoop_snoc cs count l2 0 _ _ _ _ ltac:(lia) Hc H2) as (b2 & r2 & n2 & HB2 & HR2 & HI2 & HS2 & HQ2).
    rewrite HQ1, HQ2. 
    destruct (psk_last cs count count (0 + lenN l1) (0 + lenN l2) b1 b2 id1 id2 psk1 psk2 r1 r2 n1 n2) as [(-> & -> & _ & _ & ->)|HC]; auto;
      try (unfold u16; lia); [congruence| |].
    + destruct (IH l2 b2 Hc HL' ltac:(lia) W1 W2 HB1 HB2) as [->|HC]; [auto|]. right. now apply collide_app_l.
    + right. now apply collide_app_r.
Qed.

Lemma psk_secret_binding cs ids1 psks1 ids2 psks2 s :
  Forall wf_pskID ids1 -> Forall wf_pskID ids2 ->
  0 < lenN ids1 < 65536 -> 0 < lenN ids2 < 65536 ->
  extractPSKSecret cs ids1 psks1 = Ok s -> extractPSKSecret cs ids2 psks2 = Ok s ->
  (ids1 = ids2 /\ psks1 = psks2) \/
  collide (pskSecretQueries cs (combine ids1 psks1)) (pskSecretQueries cs (combine ids2 psks2)).
Proof.
  intros W1 W2 L1 L2 H1 H2. unfold extractPSKSecret in *.
  apply rbind_ok in H1. destruct H1 as ([] & G1 & H1). apply guard_ok in G1. apply N.eqb_eq in G1.
  apply rbind_ok in H1. destruct H1 as (n1 & N1 & H1). apply extractSize_some in N1. destruct N1 as (d & D & ->).
  apply rbind_ok in H2. destruct H2 as ([] & G2 & H2). apply guard_ok in G2. apply N.eqb_eq in G2.
  apply rbind_ok in H2. destruct H2 as (n2 & N2 & H2). apply extractSize_some in N2. destruct N2 as (_ & _ & ->).
  set (l1 := combine ids1 psks1) in *. set (l2 := combine ids2 psks2) in *.
  assert (S1 : map fst l1 = ids1 /\ map snd l1 = psks1).
  { unfold lenN in G1. split; [apply map_fst_combine|apply map_snd_combine]; lia. }
  assert (S2 : map fst l2 = ids2 /\ map snd l2 = psks2).
  { unfold lenN in G2. split; [apply map_fst_combine|apply map_snd_combine]; lia. }
  destruct S1 as [S1 T1], S2 as [S2 T2].
  assert (K1 : lenN l1 = lenN ids1) by (unfold lenN; rewrite <- S1, map_length; reflexivity).
  assert (K2 : lenN l2 = lenN ids2) by (unfold lenN; rewrite <- S2, map_length; reflexivity).
  assert (F1 : Forall (fun x => wf_pskID (fst x)) l1) by (apply Forall_map; now rewrite S1).
  assert (F2 : Forall (fun x => wf_pskID (fst x)) l2) by (apply Forall_map; now rewrite S2).
  unfold pskSecretQueries. change zeros with zeroes in H1. change zeros with zeroes in H2. rewrite <- K1 in H1. rewrite <- K2 in H2.
  assert (B1 : 0 < lenN l1 < 65536) by lia. assert (B2 : 0 < lenN l2 < 65536) by lia.
  assert (HL : lenN l1 = lenN l2 \/ collide (pskListQueries cs (lenN l1) 0 (zeroes (secretSize cs)) l1)
                                            (pskListQueries cs (lenN l2) 0 (zeroes (secretSize cs)) l2)).
  { clear -H1 H2 B1 B2 F1 F2.
    remember (lenN l1) as c1 eqn:C1. remember (lenN l2) as c2 eqn:C2.
    destruct l1 as [|[id1 psk1] l1 _] using rev_ind; [unfold lenN in C1; cbn [length] in C1; lia|].
    destruct l2 as [|[id2 psk2] l2 _] using rev_ind; [unfold lenN in C2; cbn [length] in C2; lia|].
    rewrite lenN_app in C1, C2. unfold lenN in C1 at 2. unfold lenN in C2 at 2. cbn [length] in C1, C2.
    apply Forall_app in F1, F2. destruct F1 as [_ V1], F2 as [_ V2]. inversion_clear V1. inversion_clear V2. cbn [fst] in *.
    destruct (pskLoop_snoc cs c1 l1 0 _ _ _ _ ltac:(lia) ltac:(lia) H1) as (b1 & r1 & n1 & HB1 & HR1 & HI1 & HS1 & HQ1).
    destruct (pskLoop_snoc cs c2 l2 0 _ _ _ _ ltac:(lia) ltac:(lia) H2) as (b2 & r2 & n2 & HB2 & HR2 & HI2 & HS2 & HQ2).
    rewrite HQ1, HQ2.
    destruct (psk_last cs c1 c2 (0 + lenN l1) (0 + lenN l2) b1 b2 id1 id2 psk1 psk2 r1 r2 n1 n2) as [(_ & _ & _ & E & _)|HC]; auto;
      try (unfold u16; lia); [congruence| ]. right. now apply collide_app_r. }
  destruct HL as [HL|HC]; [|auto]. rewrite <- HL in H2 |- *.
  destruct (pskLoop_binding cs (lenN l1) l1 l2 s) as [E|HC]; auto; try lia. left. split; congruence.
Qed.

Lemma psk_secret_none cs s : extractPSKSecret cs [] [] = Ok s -> s = zeroes (secretSize cs).
Proof.
  unfold extractPSKSecret. intros H. apply rbind_ok in H. destruct H as ([] & _ & H).
  apply rbind_ok in H. destruct H as (n & N & H). apply extractSize_some in N. destruct N as (d & _ & ->).
  cbn in H. now apply Ok_inj in H.
Qed.
Lemma psk_secret_mismatch cs ids psks : length ids <> length psks -> exists e, extractPSKSecret cs ids psks = Err e.
Proof.
  intros H. unfold extractPSKSecret. destruct (N.eqb_spec (lenN ids) (lenN psks)); [unfold lenN in *; lia|].
  eexists. reflexivity.
Qed.

(** ** The secret tree *)

(** Labels and contexts that can be encoded *)
Definition small (b : bytes) : Prop := lenN b < 2 ^ 20.

Lemma putKdfLabel_small l c n : small l -> small c -> exists info, putKdfLabel l c n = Ok info.
Proof.
  unfold small. intros Hl Hc. unfold putKdfLabel, mlsLabel.
  assert (HL : lenN (str "MLS 1.0 " ++ l) < 2 ^ 30).
  { rewrite lenN_app. change (lenN (str "MLS 1.0 ")) with 8. change (2 ^ 20) with 1048576 in *. change (2 ^ 30) with 1073741824. lia. }
  assert (HC : lenN c < 2 ^ 30) by (change (2 ^ 20) with 1048576 in *; change (2 ^ 30) with 1073741824; lia).
  destruct (writeOpaqueVec_bound _ HL) as (p & _ & E). destruct (writeOpaqueVec_bound _ HC) as (q & _ & E').
  rewrite E, E'. cbn. eexists. reflexivity.
Qed.

Lemma expand_total cs d s l c n : cipherSuiteDescriptions cs = Some d -> small l -> small c -> n <= 255 * 32 ->
  expandWithLabel cs s l c n = Ok (answer (expandQuery cs s l c n)).
Proof.
  intros Hd Hl Hc Hn. destruct (putKdfLabel_small l c n Hl Hc) as (info & Hi).
  unfold expandWithLabel, expandQuery. rewrite Hi, <- (writes_kdfLabel _ _ _ _ Hi). cbn [rbind]. rewrite (proj2 (describe_ok _ _) Hd). cbn [rbind].
  rewrite (kdfOf_some _ _ Hd).
  assert (32 <= hashSize (sd_kdf d)) by (destruct (sd_kdf d); cbn; lia).
  destruct (N.ltb_spec (255 * hashSize (sd_kdf d)) n); [lia|]. reflexivity.
Qed.
Lemma extractSize_total cs d : cipherSuiteDescriptions cs = Some d -> extractSize cs = Ok (secretSize cs).
Proof.
  intros Hd. unfold extractSize, secretSize. rewrite (proj2 (describe_ok _ _) Hd). cbn. now rewrite (kdfOf_some _ _ Hd).
Qed.
Lemma secretSize_small cs : secretSize cs <= 255 * 32.
Proof. unfold secretSize. pose proof (kdf_size_small (kdfOf cs)) as [H _]. lia. Qed.
Lemma secretSize_u16 cs : u16 (secretSize cs).
Proof. unfold secretSize. apply kdf_size_small. Qed.

Lemma expandQuery_inj cs s1 l1 c1 s2 l2 c2 n : u16 n -> small l1 -> small c1 -> small l2 -> small c2 ->
  expandQuery cs s1 l1 c1 n = expandQuery cs s2 l2 c2 n -> s1 = s2 /\ l1 = l2 /\ c1 = c2.
Proof.
  intros Hn A1 B1 A2 B2 E. unfold expandQuery in E.
  assert (Es : s1 = s2) by congruence. subst s2.
  assert (Ee : enc_kdfLabel n l1 c1 = enc_kdfLabel n l2 c2) by congruence. clear E. rename Ee into E.
  destruct (putKdfLabel_small l1 c1 n A1 B1) as (i1 & I1). destruct (putKdfLabel_small l2 c2 n A2 B2) as (i2 & I2).
  rewrite <- (writes_kdfLabel _ _ _ _ I1), <- (writes_kdfLabel _ _ _ _ I2) in E. subst i2.
  destruct (putKdfLabel_inj _ _ _ _ _ _ _ Hn Hn I1 I2) as (-> & -> & _). auto.
Qed.

Lemma expandAll_app cs l1 : forall s l2, expandAll cs s (l1 ++ l2) = expandAll cs (expandAll cs s l1) l2.
Proof. induction l1 as [|[l c] l1 IH]; intros s l2; [reflexivity|]. cbn [app expandAll]. apply IH. Qed.
Lemma expandAllQueries_app cs l1 : forall s l2,
  expandAllQueries cs s (l1 ++ l2) = expandAllQueries cs s l1 ++ expandAllQueries cs (expandAll cs s l1) l2.
Proof. induction l1 as [|[l c] l1 IH]; intros s l2; [reflexivity|]. cbn [app expandAll expandAllQueries]. f_equal. apply IH. Qed.

Definition smallSteps (l : steps) : Prop := Forall (fun x => small (fst x) /\ small (snd x)) l.

(** Equal results: one list of steps ends with the other, or there is a
    collision. *)
Lemma expandAll_binding cs s l1 : forall l2, smallSteps l1 -> smallSteps l2 ->
  expandAll cs s l1 = expandAll cs s l2 ->
  (exists m, l1 = m ++ l2 \/ l2 = m ++ l1) \/ collide (expandAllQueries cs s l1) (expandAllQueries cs s l2).
Proof.
  induction l1 as [|[a1 c1] l1 IH] using rev_ind; intros l2 S1 S2 E.
  - left. exists l2. right. now rewrite app_nil_r.
  - destruct l2 as [|[a2 c2] l2 _] using rev_ind; [left; eexists; left; now rewrite app_nil_r|].
    apply Forall_app in S1, S2. destruct S1 as [S1 T1], S2 as [S2 T2].
    inversion_clear T1 as [|? ? [U1 V1] _]. inversion_clear T2 as [|? ? [U2 V2] _]. cbn [fst snd] in *.
    rewrite !expandAll_app in E. cbn [expandAll] in E. rewrite !expandAllQueries_app. cbn [expandAllQueries].
    destruct (equal_or_collision (expandQuery cs (expandAll cs s l1) a1 c1 (secretSize cs))
                                 (expandQuery cs (expandAll cs s l2) a2 c2 (secretSize cs))) as [EQ|HC]; [cbn; auto|exact E| |].
    + apply expandQuery_inj in EQ; auto using secretSize_u16. destruct EQ as (E1 & -> & ->).
      destruct (IH l2 S1 S2 E1) as [(m & [-> | ->])|HC].
      * left. exists m. left. now rewrite app_assoc.
      * left. exists m. right. now rewrite app_assoc.
      * right. now apply collide_app_l.
    + right. apply collide_app_r. eexists. eexists. split; [left; reflexivity|]. split; [left; reflexivity|exact HC].
Qed.

Lemma small_str_tree : small (str "tree") /\ small (str "left") /\ small (str "right").
Proof. repeat split; reflexivity. Qed.

Section Tree.
Variables (cs : N) (d : suiteDesc) (k : nat).
Hypothesis Hd : cipherSuiteDescriptions cs = Some d.
Hypothesis Hk : fits k.

Lemma deriveChildren_tree m : forall p t s fuel,
  (length p + m = k)%nat -> (m <= fuel)%nat -> lenN t = node_count k -> getN t (number k p) = Ok (Some s) ->
  exists t', deriveChildren fuel cs t (number k p) = Ok t' /\ lenN t' = lenN t /\
    (forall q, (length q <= m)%nat -> getN t' (number k (p ++ q)) = Ok (Some (expandAll cs s (pathSteps q)))) /\
    (forall r, in_tree k r -> (~ exists q, r = p ++ q) -> getN t' (number k r) = getN t (number k r)).
Proof.
  induction m as [|m IH]; intros p t s fuel Hp Hf Hl Hs.
  - exists t. splits; auto.
    + destruct (path_leaf k Hk p ltac:(lia)) as [E _]. destruct fuel; cbn [deriveChildren]; now rewrite E.
    + intros q Hq. destruct q; [|cbn in Hq; lia]. rewrite app_nil_r. exact Hs.
  - destruct fuel as [|fuel]; [lia|]. cbn [deriveChildren].
    rewrite path_children by (auto; lia). unfold getSecret. rewrite Hs. cbn [rbind].
    rewrite (extractSize_total _ _ Hd). cbn [rbind]. destruct small_str_tree as (Sa & Sb & Sc).
    rewrite !(expand_total cs d) by (auto using secretSize_small). cbn [rbind].
    set (sl := answer (expandQuery cs s (str "tree") (str "left") (secretSize cs))).
    set (sr := answer (expandQuery cs s (str "tree") (str "right") (secretSize cs))).
    assert (Hin : forall b, in_tree k (p ++ [b])) by (intros; apply in_tree_snoc; lia).
    assert (Hlt : forall b, number k (p ++ [b]) < lenN t) by (intros; rewrite Hl; now apply number_lt).
    assert (Hne : number k (p ++ [false]) <> number k (p ++ [true])).
    { intros E. apply number_inj in E; auto. apply app_inv_head in E. discriminate. }
    destruct (setN t (number k (p ++ [false])) (Some sl)) as [t1| | |] eqn:E1; try (rewrite setN_in in E1 by auto; discriminate). cbn [rbind].
    assert (L1 : lenN t1 = lenN t) by (eapply setN_len; eauto).
    destruct (setN t1 (number k (p ++ [true])) (Some sr)) as [t2| | |] eqn:E2;
      try (rewrite setN_in in E2 by (rewrite L1; auto); discriminate). cbn [rbind].
    assert (L2 : lenN t2 = lenN t) by (rewrite <- L1; eapply setN_len; eauto).
    assert (G2 : forall x, getN t2 x = if x =? number k (p ++ [true]) then Ok (Some sr)
                                       else if x =? number k (p ++ [false]) then Ok (Some sl) else getN t x).
    { intros x. rewrite (getN_setN _ _ _ _ x E2), (getN_setN _ _ _ _ x E1). reflexivity. }
    destruct (IH (p ++ [false]) t2 sl fuel) as (t3 & D3 & L3 & A3 & O3); [rewrite app_length; cbn; lia|lia|congruence| |].
    { rewrite G2. destruct (N.eqb_spec (number k (p ++ [false])) (number k (p ++ [true]))); [congruence|]. now rewrite N.eqb_refl. }
    rewrite D3. cbn [rbind].
    destruct (IH (p ++ [true]) t3 sr fuel) as (t4 & D4 & L4 & A4 & O4); [rewrite app_length; cbn; lia|lia|congruence| |].
    { rewrite O3; auto.
      - rewrite G2. now rewrite N.eqb_refl.
      - intros (q & E). rewrite <- app_assoc in E. apply app_inv_head in E. discriminate. }
    exists t4. splits; auto; [congruence| |].
    + intros q Hq. destruct q as [|[|] q].
      * rewrite app_nil_r. assert (Hp' : in_tree k p) by (unfold in_tree; lia).
        rewrite O4, O3; auto.
        -- rewrite G2. destruct (N.eqb_spec (number k p) (number k (p ++ [true]))) as [E|_].
           { apply number_inj in E; auto. rewrite <- (app_nil_r p) in E at 1. apply app_inv_head in E. discriminate. }
           destruct (N.eqb_spec (number k p) (number k (p ++ [false]))) as [E|_].
           { apply number_inj in E; auto. rewrite <- (app_nil_r p) in E at 1. apply app_inv_head in E. discriminate. }
           exact Hs.
        -- intros (q & E). rewrite <- app_assoc in E. rewrite <- (app_nil_r p) in E at 1. apply app_inv_head in E. discriminate.
        -- intros (q & E). rewrite <- app_assoc in E. rewrite <- (app_nil_r p) in E at 1. apply app_inv_head in E. discriminate.
      * cbn in Hq. specialize (A4 q ltac:(lia)). rewrite <- app_assoc in A4. exact A4.
      * cbn in Hq. rewrite O4.
        -- specialize (A3 q ltac:(lia)). rewrite <- app_assoc in A3. exact A3.
        -- unfold in_tree. rewrite app_length. cbn. lia.
        -- intros (q' & E). rewrite <- app_assoc in E. apply app_inv_head in E. discriminate.
    + intros r Hr Hno. rewrite O4, O3; auto.
      * rewrite G2. destruct (N.eqb_spec (number k r) (number k (p ++ [true]))) as [E|_].
        { apply number_inj in E; auto. exfalso; eauto. }
        destruct (N.eqb_spec (number k r) (number k (p ++ [false]))) as [E|_].
        { apply number_inj in E; auto. exfalso; eauto. }
        reflexivity.
      * intros (q & E). apply Hno. exists (false :: q). now rewrite <- app_assoc in E.
      * intros (q & E). apply Hno. exists (true :: q). now rewrite <- app_assoc in E.
Qed.

Lemma width_full : width (leaf_count k) = node_count k.
Proof. now apply sizes. Qed.

Lemma secret_tree_secrets s : exists t, deriveSecretTree cs (leaf_count k) s = Ok t /\ lenN t = node_count k /\
  forall p, in_tree k p -> nth_error t (N.to_nat (number k p)) = Some (Some (expandAll cs s (pathSteps p))).
Proof.
  unfold deriveSecretTree. rewrite width_full, path_root by auto.
  set (t0 := repeat None (N.to_nat (node_count k))).
  assert (L0 : lenN t0 = node_count k) by (unfold lenN, t0; rewrite repeat_length; lia).
  destruct (setN t0 (number k []) (Some s)) as [t1| | |] eqn:E1;
    try (rewrite setN_in in E1 by (rewrite L0; apply number_lt; unfold in_tree; cbn; lia); discriminate). cbn [rbind].
  assert (L1 : lenN t1 = node_count k) by (rewrite <- L0; eapply setN_len; eauto).
  destruct (deriveChildren_tree k [] t1 s 32) as (t & D & L & A & _); auto.
  - rewrite (getN_setN _ _ _ _ _ E1), N.eqb_refl. reflexivity.
  - exists t. splits; auto; [congruence|]. intros p Hp. apply getN_ok. apply (A p Hp).
Qed.
End Tree.

(** ** Message secrets *)
Lemma ratchetForward_steps cs n : forall s s', (rs_generation s + N.of_nat n < 2 ^ 32) ->
  ratchetForward cs s n = Ok s' ->
  rs_secret s' = expandAll cs (rs_secret s) (map (fun g => (str "secret", num 4 (rs_generation s + g))) (upto (N.of_nat n))) /\
  rs_generation s' = rs_generation s + N.of_nat n.
Proof.
  induction n as [|n IH]; intros s s' Hb H.
  - cbn in H. apply Ok_inj in H. subst. cbn. split; [reflexivity|lia].
  - cbn [ratchetForward] in H. unfold deriveNext in H.
    apply rbind_ok in H. destruct H as (s1 & H1 & H). apply rbind_ok in H1. destruct H1 as (nh & N1 & H1).
    apply extractSize_some in N1. destruct N1 as (d & Hd & ->).
    apply rbind_ok in H1. destruct H1 as (nx & X & H1). apply Ok_inj in H1. subst s1.
    unfold deriveTreeSecret in X. cbn [addUint32 rbind] in X. rewrite <- num_be in X. apply expandWithLabel_query in X.
    specialize (IH (mkRatchetSecret nx ((rs_generation s + 1) mod 2 ^ 32)) s' ltac:(cbn [rs_generation]; rewrite N.mod_small by lia; lia) H). cbn [rs_secret rs_generation] in IH.
    rewrite N.mod_small in IH by lia. destruct IH as [IH1 IH2]. split; [|lia].
    rewrite IH1. subst nx. unfold upto. rewrite !Nat2N.id. cbn [seq map expandAll]. rewrite N.add_0_r. f_equal.
    rewrite <- seq_shift, !map_map. apply map_ext. intros a. do 2 f_equal. lia.
Qed.

Lemma message_secret_steps g k p li ct n s : fits k -> lenN (gr_tree g) = node_count k -> length p = k -> number k p = 2 * li ->
  n < 2 ^ 32 -> messageSecret g li ct n = Ok s ->
  exists enc, deriveSecret (gc_cipherSuite (gr_context g)) (gr_epochSecret g) (str "encryption") = Ok enc /\
    (1 <= ct <= 3) /\
    rs_secret s = expandAll (gc_cipherSuite (gr_context g)) enc (messageSteps p (ct =? 1) n) /\ rs_generation s = n.
Proof.
  intros Hk Ht Hp Hli Hn H. unfold messageSecret in H.
  apply rbind_ok in H. destruct H as (enc & He & H). exists enc. split; [exact He|].
  apply rbind_ok in H. destruct H as (st & Hst & H). apply rbind_ok in H. destruct H as (label & Hlab & H).
  apply rbind_ok in H. destruct H as (r0 & Hr0 & H).
  unfold deriveRatchetRoot in Hr0. apply rbind_ok in Hr0. destruct Hr0 as (nh & N1 & Hr0).
  apply extractSize_some in N1. destruct N1 as (d & Hd & ->).
  assert (HN : numLeaves (gr_tree g) = leaf_count k) by (now apply numLeaves_tree).
  rewrite HN in Hst. destruct (secret_tree_secrets _ d k Hd Hk enc) as (t & Hst' & Lt & At).
  rewrite Hst' in Hst. apply Ok_inj in Hst. subst st.
  assert (Hin : in_tree k p) by (unfold in_tree; lia).
  assert (HI : nodeIndexOf li = number k p).
  { unfold nodeIndexOf. pose proof (number_32 k p Hk Hin). rewrite Hli in *. rewrite w32_small; lia. }
  rewrite HI in Hr0. unfold getSecret in Hr0. rewrite (proj2 (getN_ok _ _ _) (At p Hin)) in Hr0. cbn [rbind] in Hr0.
  apply rbind_ok in Hr0. destruct Hr0 as (rt & Hrt & Hr0). apply Ok_inj in Hr0. subst r0. apply expandWithLabel_query in Hrt.
  apply ratchetForward_steps in H; [|cbn [rs_generation]; lia]. cbn [rs_secret rs_generation] in H. destruct H as [H1 H2].
  rewrite N2Nat.id in *.
  assert (HL : 1 <= ct <= 3 /\ label = kindLabel (ct =? 1)).
  { unfold ratchetLabelFromContentType in Hlab. destruct ct as [|[[[]|[]|]|[[]|[]|]|]]; cbn in Hlab; try discriminate;
      apply Ok_inj in Hlab; subst; split; try lia; reflexivity. }
  destruct HL as [HC ->]. split; [assumption|]. split; [|lia].
  rewrite H1. unfold messageSteps. rewrite !expandAll_app. cbn [expandAll]. rewrite <- Hrt. unfold generationSteps.
  f_equal.
Qed.

Lemma messageSteps_small p b n : smallSteps (messageSteps p b n).
Proof.
  unfold smallSteps, messageSteps. rewrite !Forall_app. splits.
  - apply Forall_map, Forall_forall. intros x _. cbn. destruct x; split; reflexivity.
  - constructor; [|constructor]. cbn. destruct b; split; reflexivity.
  - apply Forall_map, Forall_forall. intros x _. cbn [fst snd]. split; [reflexivity|]. unfold small. rewrite num_be, lenN_be. reflexivity.
Qed.

Lemma generationSteps_succ n : generationSteps (n + 1) = generationSteps n ++ [(str "secret", num 4 n)].
Proof.
  unfold generationSteps, upto. replace (N.to_nat (n + 1)) with (S (N.to_nat n)) by lia. rewrite seq_S, !map_app. cbn [map].
  replace (N.of_nat (0 + N.to_nat n)) with n by lia. reflexivity.
Qed.

Lemma be4_inj a b : u32 a -> u32 b -> num 4 a = num 4 b -> a = b.
Proof. intros Ha Hb E. rewrite !num_be in E. destruct (u32_app_inj a b (be 4 a) (be 4 b) [] [] Ha Hb eq_refl eq_refl) as [-> _]; [congruence|reflexivity]. Qed.

Lemma messageSteps_suffix p1 b1 n1 p2 b2 n2 m : length p1 = length p2 -> u32 n1 -> u32 n2 ->
  messageSteps p1 b1 n1 = m ++ messageSteps p2 b2 n2 -> p1 = p2 /\ b1 = b2 /\ n1 = n2.
Proof.
  intros HL U1 U2 E.
  assert (En : n1 = n2).
  { unfold messageSteps in E. destruct (N.eq_dec n1 0) as [->|Z1]; destruct (N.eq_dec n2 0) as [->|Z2]; auto.
    - replace n2 with (n2 - 1 + 1) in E by lia. rewrite generationSteps_succ in E. rewrite !app_assoc in E.
      change (generationSteps 0) with (@nil (bytes * bytes)) in E. rewrite app_nil_r in E. apply app_inj_tail in E.
      destruct E as [_ E]. destruct b1; discriminate E.
    - replace n1 with (n1 - 1 + 1) in E by lia. rewrite generationSteps_succ in E. rewrite !app_assoc in E.
      change (generationSteps 0) with (@nil (bytes * bytes)) in E. rewrite app_nil_r in E. apply app_inj_tail in E.
      destruct E as [_ E]. destruct b2; discriminate E.
    - replace n1 with (n1 - 1 + 1) in E by lia. replace n2 with (n2 - 1 + 1) in E by lia.
      rewrite !generationSteps_succ in E. rewrite !app_assoc in E. apply app_inj_tail in E. destruct E as [_ E].
      assert (Eb : num 4 (n1 - 1) = num 4 (n2 - 1)) by congruence. apply be4_inj in Eb; [lia| |]; unfold u32 in *; lia. }
  subst n2. unfold messageSteps in E. rewrite !app_assoc in E. apply app_inv_tail in E.
  apply app_inj_tail in E. destruct E as [E1 E2].
  assert (m = []).
  { apply (f_equal (@length _)) in E1. rewrite app_length in E1. unfold pathSteps in E1. rewrite !map_length in E1.
    destruct m; [reflexivity|cbn in E1; lia]. }
  subst m. cbn [app] in E1. splits; auto.
  - clear - E1. revert p2 E1. induction p1 as [|x p1 IH]; intros [|y p2] E; try discriminate; auto.
    cbn [pathSteps map] in E. injection E as E0 E. f_equal; [|now apply IH]. destruct x, y; auto; discriminate.
  - destruct b1, b2; auto; discriminate.
Qed.

Lemma message_secret_binding g k p1 li1 ct1 n1 p2 li2 ct2 n2 s1 s2 :
  fits k -> lenN (gr_tree g) = node_count k ->
  length p1 = k -> number k p1 = 2 * li1 -> length p2 = k -> number k p2 = 2 * li2 -> u32 n1 -> u32 n2 ->
  messageSecret g li1 ct1 n1 = Ok s1 -> messageSecret g li2 ct2 n2 = Ok s2 -> rs_secret s1 = rs_secret s2 ->
  (li1 = li2 /\ (ct1 =? 1) = (ct2 =? 1) /\ n1 = n2) \/
  exists enc, deriveSecret (gc_cipherSuite (gr_context g)) (gr_epochSecret g) (str "encryption") = Ok enc /\
    collide (expandAllQueries (gc_cipherSuite (gr_context g)) enc (messageSteps p1 (ct1 =? 1) n1))
            (expandAllQueries (gc_cipherSuite (gr_context g)) enc (messageSteps p2 (ct2 =? 1) n2)).
Proof.
  intros Hk Ht L1 Li1 L2 Li2 U1 U2 H1 H2 E.
  apply (message_secret_steps g k p1) in H1; auto. apply (message_secret_steps g k p2) in H2; auto.
  destruct H1 as (enc & He & _ & S1 & _), H2 as (enc2 & He2 & _ & S2 & _).
  rewrite He in He2. apply Ok_inj in He2. subst enc2. rewrite S1, S2 in E.
  apply expandAll_binding in E; auto using messageSteps_small.
  destruct E as [(m & [E|E])|HC].
  - apply messageSteps_suffix in E; auto; [|congruence]. destruct E as (-> & Eb & En). left. splits; auto. lia.
  - apply messageSteps_suffix in E; auto; [|congruence]. destruct E as (-> & Eb & En). left. splits; auto. lia.
  - right. exists enc. auto.
Qed.

(** Keys and nonces *)
Lemma key_query cs s key : deriveKey cs s = Ok key ->
  exists d, cipherSuiteDescriptions cs = Some d /\
    key = answer (expandQuery cs (rs_secret s) (str "key") (num 4 (rs_generation s)) (aeadKeySize (sd_aead d))).
Proof.
  unfold deriveKey, suiteKeySize. intros H. apply rbind_ok in H. destruct H as (nk & Hk & H). apply rmap_ok in Hk.
  destruct Hk as (d & Hd & ->). apply describe_ok in Hd. exists d. split; [assumption|].
  unfold deriveTreeSecret in H. cbn [addUint32 rbind] in H. rewrite <- num_be in H. now apply expandWithLabel_query in H.
Qed.
Lemma nonce_query cs s nonce : deriveNonce cs s = Ok nonce ->
  exists d, cipherSuiteDescriptions cs = Some d /\
    nonce = answer (expandQuery cs (rs_secret s) (str "nonce") (num 4 (rs_generation s)) (aeadNonceSize (sd_aead d))).
Proof.
  unfold deriveNonce, suiteNonceSize. intros H. apply rbind_ok in H. destruct H as (nk & Hk & H). apply rmap_ok in Hk.
  destruct Hk as (d & Hd & ->). apply describe_ok in Hd. exists d. split; [assumption|].
  unfold deriveTreeSecret in H. cbn [addUint32 rbind] in H. rewrite <- num_be in H. now apply expandWithLabel_query in H.
Qed.

Lemma key_and_nonce_labels cs s key nonce : deriveKey cs s = Ok key -> deriveNonce cs s = Ok nonce ->
  key = ratchet_key cs (rs_secret s) (rs_generation s) /\
  nonce = ratchet_nonce cs (rs_secret s) (rs_generation s) /\
  forall g n1 n2, u32 g -> u32 (rs_generation s) -> u16 n1 -> u16 n2 ->
    (enc_kdfLabel n1 (str "key") (num 4 (rs_generation s)) <> enc_kdfLabel n2 (str "nonce") (num 4 g)) /\
    (g <> rs_generation s ->
       enc_kdfLabel n1 (str "key") (num 4 (rs_generation s)) <> enc_kdfLabel n2 (str "key") (num 4 g) /\
       enc_kdfLabel n1 (str "nonce") (num 4 (rs_generation s)) <> enc_kdfLabel n2 (str "nonce") (num 4 g)).
Proof.
  intros Hk Hn. apply key_query in Hk. destruct Hk as (d & Hd & Hk). apply nonce_query in Hn. destruct Hn as (d' & Hd' & Hn).
  splits.
  - unfold ratchet_key, keySize. rewrite (aeadOf_some _ _ Hd). exact Hk.
  - unfold ratchet_nonce, nonceSize. rewrite (aeadOf_some _ _ Hd'). exact Hn.
  - intros g n1 n2 Ug Us U1 U2.
    assert (HS : forall x, small (num 4 x)) by (intros x; unfold small; rewrite num_be, lenN_be; reflexivity).
    assert (Ht : forall a b g1 g2, small a -> small b -> enc_kdfLabel n1 a (num 4 g1) = enc_kdfLabel n2 b (num 4 g2) -> a = b /\ num 4 g1 = num 4 g2).
    { intros a b g1 g2 Ha Hb E. destruct (putKdfLabel_small a (num 4 g1) n1 Ha (HS _)) as (i & Hi).
      destruct (putKdfLabel_small b (num 4 g2) n2 Hb (HS _)) as (j & Hj).
      rewrite <- (writes_kdfLabel _ _ _ _ Hi), <- (writes_kdfLabel _ _ _ _ Hj) in E. subst j.
      destruct (putKdfLabel_inj _ _ _ _ _ _ _ U1 U2 Hi Hj) as (-> & -> & _). auto. }
    split; [|intros Hne; split]; intros E; apply Ht in E; try reflexivity; destruct E as [E1 E2].
    + discriminate.
    + apply be4_inj in E2; auto.
    + apply be4_inj in E2; auto.
Qed.

(** ** Transcript hashes *)
Lemma unmarshal_mls_wf raw m : unmarshal getMlsMessage raw = Ok m -> wf_mlsMessage m.
Proof.
  intros H. apply unmarshal_ok in H. apply mlsMessage_CAN in H. apply H.
Qed.

Lemma carries_wf g raw ac : carries g raw ac -> wf_framedContent (ac_content ac) /\ u16 (ac_wireFormat ac).
Proof.
  intros [m H|m sds sd secret pc H _ Hs _ Hc]; cbn [ac_content ac_wireFormat].
  - apply unmarshal_mls_wf in H. destruct H as [H _]. split; [exact H|reflexivity].
  - apply unmarshal_mls_wf in H. destruct H as [H Hct]. split; [|reflexivity]. unfold wf_framedContent. cbn.
    splits; auto.
    + unfold decryptSenderData in Hs. rinv. apply unmarshal_ok in Hs. apply senderData_CANT in Hs.
      destruct Hs as [Hs _]. apply Hs.
    + unfold decryptContent in Hc. rinv. subst.
      match goal with E : getPrivateMessageContent _ _ = _ |- _ => apply privateMessageContent_CAN in E; [apply E|exact Hct] end.
Qed.

Definition goodEntry (e : transcriptEntry) : Prop :=
  wf_framedContent (te_content e) /\ u16 (te_wireFormat e) /\
  (exists raw, putConfirmedTranscriptHashInput (te_wireFormat e) (te_content e) (te_signature e) = Ok raw) /\
  exists raw, writeOpaqueVec (te_tag e) = Ok raw.

Fixpoint interimAfter (cs : N) (interim : bytes) (l : list transcriptEntry) : bytes :=
  match l with
  | [] => interim
  | e :: r => interimAfter cs (answer (interimQuery cs (answer (confirmedQuery cs interim e)) e)) r
  end.
Definition confirmedAfter (cs : N) (interim confirmed : bytes) (l : list transcriptEntry) : bytes :=
  match rev l with
  | [] => confirmed
  | e :: r => answer (confirmedQuery cs (interimAfter cs interim (rev r)) e)
  end.
Lemma interimAfter_snoc cs l : forall i e, interimAfter cs i (l ++ [e]) =
  answer (interimQuery cs (answer (confirmedQuery cs (interimAfter cs i l) e)) e).
Proof. induction l as [|x l IH]; intros i e; [reflexivity|]. cbn [app interimAfter]. apply IH. Qed.
Lemma transcriptQueries_snoc cs l : forall i e, transcriptQueries cs i (l ++ [e]) =
  transcriptQueries cs i l ++
  [confirmedQuery cs (interimAfter cs i l) e; interimQuery cs (answer (confirmedQuery cs (interimAfter cs i l) e)) e].
Proof. induction l as [|x l IH]; intros i e; [reflexivity|]. cbn [app interimAfter transcriptQueries]. now rewrite IH. Qed.
Lemma confirmedAfter_snoc cs i c l e : confirmedAfter cs i c (l ++ [e]) = answer (confirmedQuery cs (interimAfter cs i l) e).
Proof. unfold confirmedAfter. rewrite rev_app_distr. cbn [rev app]. now rewrite rev_involutive. Qed.

Lemma lenN_answer_hash h m : crypto_ok C -> lenN (answer (QHash h m)) = hashSize h.
Proof. intros OK. apply (ok_hash C OK). Qed.

Lemma interimAfter_len cs i l : crypto_ok C -> l <> [] -> lenN (interimAfter cs i l) = hashSize (hashOf cs).
Proof.
  intros OK H. destruct l as [|e l _] using rev_ind; [congruence|]. rewrite interimAfter_snoc. now apply lenN_answer_hash.
Qed.

Lemma app_inj_len {A} (a b c d : list A) : length a = length b -> a ++ c = b ++ d -> a = b /\ c = d.
Proof.
  revert b. induction a as [|x a IH]; intros [|y b] H E; try discriminate; auto.
  injection E as -> E. injection H as H. destruct (IH b H E) as [-> ->]. auto.
Qed.
Lemma app_inj_lenN {A} (a b c d : list A) : lenN a = lenN b -> a ++ c = b ++ d -> a = b /\ c = d.
Proof. unfold lenN. intros H. apply app_inj_len. lia. Qed.

Lemma transcriptInput_inj e1 e2 raw : goodEntry e1 -> goodEntry e2 ->
  putConfirmedTranscriptHashInput (te_wireFormat e1) (te_content e1) (te_signature e1) = Ok raw ->
  putConfirmedTranscriptHashInput (te_wireFormat e2) (te_content e2) (te_signature e2) = Ok raw ->
  untagged e1 = untagged e2.
Proof.
  intros (W1 & U1 & _) (W2 & U2 & _) H1 H2. unfold putConfirmedTranscriptHashInput in *.
  destruct (fc_body (te_content e1)) eqn:B1; try discriminate. destruct (fc_body (te_content e2)) eqn:B2; try discriminate.
  apply wapp_ok in H1, H2. destruct H1 as (a1 & b1 & A1 & H1 & ->), H2 as (a2 & b2 & A2 & H2 & E).
  destruct (u16_app_inj _ _ _ _ _ _ U1 U2 A1 A2 E) as [E1 ->].
  apply wapp_ok in H1, H2. destruct H1 as (x1 & y1 & X1 & Y1 & ->), H2 as (x2 & y2 & X2 & Y2 & E2).
  destruct (app_inj_by _ _ _ framedContent_RT _ _ _ _ _ _ W1 W2 X1 X2 E2) as [E3 ->].
  destruct (opaque_app_inj _ _ _ _ [] [] Y1 Y2 eq_refl) as [E4 _]. unfold untagged. congruence.
Qed.

(** One commit *)
Lemma confirmed_binding cs i1 i2 e1 e2 : lenN i1 = lenN i2 -> goodEntry e1 -> goodEntry e2 ->
  answer (confirmedQuery cs i1 e1) = answer (confirmedQuery cs i2 e2) ->
  (i1 = i2 /\ untagged e1 = untagged e2) \/ collision (confirmedQuery cs i1 e1) (confirmedQuery cs i2 e2).
Proof.
  intros HL G1 G2 E. destruct (equal_or_collision _ _ (eq_refl : comparable (confirmedQuery cs i1 e1) (confirmedQuery cs i2 e2)) E) as [EQ|]; [|auto].
  left. unfold confirmedQuery in EQ.
  pose proof G1 as (_ & _ & (r1 & R1) & _). pose proof G2 as (_ & _ & (r2 & R2) & _).
  rewrite <- (writes_confirmedTranscriptHashInput _ _ _ _ R1), <- (writes_confirmedTranscriptHashInput _ _ _ _ R2) in EQ.
  assert (EE : i1 ++ r1 = i2 ++ r2) by congruence. apply app_inj_lenN in EE; [|assumption]. destruct EE as [-> ->].
  split; [reflexivity|]. eapply transcriptInput_inj; eauto.
Qed.
Lemma interim_binding cs c1 c2 e1 e2 : lenN c1 = lenN c2 -> goodEntry e1 -> goodEntry e2 ->
  answer (interimQuery cs c1 e1) = answer (interimQuery cs c2 e2) ->
  (c1 = c2 /\ te_tag e1 = te_tag e2) \/ collision (interimQuery cs c1 e1) (interimQuery cs c2 e2).
Proof.
  intros HL G1 G2 E. destruct (equal_or_collision _ _ (eq_refl : comparable (interimQuery cs c1 e1) (interimQuery cs c2 e2)) E) as [EQ|]; [|auto].
  left. unfold interimQuery in EQ.
  pose proof G1 as (_ & _ & _ & (r1 & R1)). pose proof G2 as (_ & _ & _ & (r2 & R2)).
  rewrite <- (writes_vec _ _ R1), <- (writes_vec _ _ R2) in EQ.
  assert (EE : c1 ++ r1 = c2 ++ r2) by congruence. apply app_inj_lenN in EE; [|assumption]. destruct EE as [-> ->].
  split; [reflexivity|]. now destruct (opaque_app_inj _ _ _ _ [] [] R1 R2 eq_refl).
Qed.

Lemma entry_eq e1 e2 : untagged e1 = untagged e2 -> te_tag e1 = te_tag e2 -> e1 = e2.
Proof. destruct e1, e2. unfold untagged. cbn. congruence. Qed.

Lemma interimAfter_len_eq cs i l1 l2 : crypto_ok C -> length l1 = length l2 -> lenN (interimAfter cs i l1) = lenN (interimAfter cs i l2).
Proof.
  intros OK H. destruct l1, l2; try discriminate; [reflexivity|].
  rewrite !interimAfter_len; auto; discriminate.
Qed.

Lemma interimAfter_binding cs i l1 : crypto_ok C -> forall l2, length l1 = length l2 ->
  Forall goodEntry l1 -> Forall goodEntry l2 -> interimAfter cs i l1 = interimAfter cs i l2 ->
  l1 = l2 \/ collide (transcriptQueries cs i l1) (transcriptQueries cs i l2).
Proof.
  intros OK. induction l1 as [|e1 l1 IH] using rev_ind; intros l2 HL G1 G2 E; [destruct l2; [auto|discriminate]|].
  destruct l2 as [|e2 l2 _] using rev_ind; [rewrite app_length in HL; cbn in HL; lia|].
  rewrite !app_length in HL. cbn [length] in HL. assert (HL' : length l1 = length l2) by lia.
  apply Forall_app in G1, G2. destruct G1 as [G1 T1], G2 as [G2 T2]. inversion_clear T1. inversion_clear T2.
  rewrite !interimAfter_snoc in E. rewrite !transcriptQueries_snoc.
  apply interim_binding in E; auto; [|unfold confirmedQuery; now rewrite !lenN_answer_hash by assumption].
  destruct E as [[E1 E2]|HC].
  - apply confirmed_binding in E1; auto using interimAfter_len_eq. destruct E1 as [[E1 E3]|HC].
    + destruct (IH l2 HL' G1 G2 E1) as [->|HC].
      * left. f_equal. f_equal. now apply entry_eq.
      * right. now apply collide_app_l.
    + right. apply collide_app_r. eexists. eexists. split; [left; reflexivity|]. split; [left; reflexivity|exact HC].
  - right. apply collide_app_r. eexists. eexists. split; [right; left; reflexivity|]. split; [right; left; reflexivity|exact HC].
Qed.

Lemma confirmedAfter_binding cs i c1 c2 l1 l2 : crypto_ok C -> length l1 = length l2 -> l1 <> [] ->
  Forall goodEntry l1 -> Forall goodEntry l2 -> confirmedAfter cs i c1 l1 = confirmedAfter cs i c2 l2 ->
  (map untagged l1 = map untagged l2 /\ map te_tag (removelast l1) = map te_tag (removelast l2)) \/
  collide (transcriptQueries cs i l1) (transcriptQueries cs i l2).
Proof.
  intros OK HL Hne G1 G2 E.
  destruct l1 as [|e1 l1 _] using rev_ind; [congruence|].
  destruct l2 as [|e2 l2 _] using rev_ind; [rewrite app_length in HL; cbn in HL; lia|].
  rewrite !app_length in HL. cbn [length] in HL. assert (HL' : length l1 = length l2) by lia.
  apply Forall_app in G1, G2. destruct G1 as [G1 T1], G2 as [G2 T2]. inversion_clear T1. inversion_clear T2.
  rewrite !confirmedAfter_snoc in E. rewrite !transcriptQueries_snoc.
  apply confirmed_binding in E; auto using interimAfter_len_eq. destruct E as [[E1 E2]|HC].
  - apply interimAfter_binding in E1; auto. destruct E1 as [->|HC].
    + left. rewrite !removelast_last, !map_app. cbn [map]. rewrite E2. auto.
    + right. now apply collide_app_l.
  - right. apply collide_app_r. eexists. eexists. split; [left; reflexivity|]. split; [left; reflexivity|exact HC].
Qed.

Lemma confirmedAfter_cons cs i c e l : confirmedAfter cs i c (e :: l) =
  confirmedAfter cs (answer (interimQuery cs (answer (confirmedQuery cs i e)) e)) (answer (confirmedQuery cs i e)) l.
Proof.
  destruct l as [|x l _] using rev_ind; [reflexivity|]. rewrite app_comm_cons, !confirmedAfter_snoc. reflexivity.
Qed.

Lemma hashSum_some cs m r : hashSum cs m = Ok r -> r = answer (QHash (hashOf cs) m).
Proof.
  unfold hashSum. intros H. apply rbind_ok in H. destruct H as (d & Hd & H). apply describe_ok in Hd. apply Ok_inj in H.
  now rewrite (hashOf_some _ _ Hd).
Qed.

Lemma commit_transcript g raw now ac c g' : accepts_commit g raw now ac c g' ->
  let cs := gc_cipherSuite (gr_context g) in
  let confirmed := answer (confirmedQuery cs (gr_interimTranscriptHash g) (entry ac)) in
  goodEntry (entry ac) /\ gc_cipherSuite (gr_context g') = cs /\
  gc_confirmedTranscriptHash (gr_context g') = confirmed /\
  gr_interimTranscriptHash g' = answer (interimQuery cs confirmed (entry ac)).
Proof.
  intros H. cbn zeta. pose proof H as (Hc & _ & _). apply carries_wf in Hc. apply commit_new_state in H.
  destruct H as (th & confirmed & x1 & x2 & x3 & x4 & Hctx & _ & _ & _ & H1 & H2 & _).
  unfold confirmedTranscriptHash in H1. apply rbind_ok in H1. destruct H1 as (r1 & R1 & H1). apply hashSum_some in H1.
  unfold nextInterimTranscriptHash in H2. apply rbind_ok in H2. destruct H2 as (r2 & R2 & H2). apply hashSum_some in H2.
  unfold confirmedQuery, interimQuery, goodEntry, entry. cbn [te_wireFormat te_content te_signature te_tag].
  rewrite <- (writes_confirmedTranscriptHashInput _ _ _ _ R1), <- (writes_vec _ _ R2).
  rewrite Hctx. cbn [gc_cipherSuite gc_confirmedTranscriptHash]. rewrite <- H1. splits; auto; eauto. apply Hc. apply Hc.
Qed.

Lemma commit_log_transcript g l es : commit_log g l es ->
  let cs := gc_cipherSuite (gr_context g) in
  Forall goodEntry es /\
  gr_interimTranscriptHash (after g l) = interimAfter cs (gr_interimTranscriptHash g) es /\
  gc_confirmedTranscriptHash (gr_context (after g l)) =
    confirmedAfter cs (gr_interimTranscriptHash g) (gc_confirmedTranscriptHash (gr_context g)) es.
Proof.
  induction 1 as [g|g raw now r l ac c g' Ha Hr IH|g raw now r l Hn Hr IH]; cbn zeta in *.
  - auto.
  - cbn [after]. assert (Eg : fst (unmarshalAndProcessMessage g raw now) = g') by (destruct Ha as (_ & _ & Hu); rewrite Hu; reflexivity).
    rewrite Eg. apply commit_transcript in Ha. cbn zeta in Ha. destruct Ha as (G & Ecs & Ec & Ei).
    rewrite Ecs, Ec, Ei in IH. destruct IH as (IH1 & IH2 & IH3). cbn [interimAfter]. rewrite confirmedAfter_cons. auto.
  - cbn [after]. destruct (step_cases g raw now) as [(ac & c & Ha)|[_ (Hctx & _ & _ & _ & Hi & _)]]; [exfalso; eapply Hn; eauto|].
    cbn zeta in *. rewrite Hctx, Hi in IH. exact IH.
Qed.

Lemma transcript_binding g1 l1 es1 g2 l2 es2 : crypto_ok C ->
  gc_cipherSuite (gr_context g1) = gc_cipherSuite (gr_context g2) ->
  gr_interimTranscriptHash g1 = gr_interimTranscriptHash g2 ->
  commit_log g1 l1 es1 -> commit_log g2 l2 es2 -> length es1 = length es2 -> es1 <> [] ->
  gc_confirmedTranscriptHash (gr_context (after g1 l1)) = gc_confirmedTranscriptHash (gr_context (after g2 l2)) ->
  (map untagged es1 = map untagged es2 /\ map te_tag (removelast es1) = map te_tag (removelast es2)) \/
  collide (transcriptQueries (gc_cipherSuite (gr_context g1)) (gr_interimTranscriptHash g1) es1)
          (transcriptQueries (gc_cipherSuite (gr_context g1)) (gr_interimTranscriptHash g1) es2).
Proof.
  intros OK Hcs Hi H1 H2 HL Hne E. apply commit_log_transcript in H1, H2. cbn zeta in *.
  destruct H1 as (G1 & _ & C1), H2 as (G2 & _ & C2). rewrite C1, C2, <- Hcs, <- Hi in E.
  eapply confirmedAfter_binding; eauto.
Qed.

(** With the interim transcript hash, the last tag too *)
Lemma interim_transcript_binding g1 l1 es1 g2 l2 es2 : crypto_ok C ->
  gc_cipherSuite (gr_context g1) = gc_cipherSuite (gr_context g2) ->
  gr_interimTranscriptHash g1 = gr_interimTranscriptHash g2 ->
  commit_log g1 l1 es1 -> commit_log g2 l2 es2 -> length es1 = length es2 ->
  gr_interimTranscriptHash (after g1 l1) = gr_interimTranscriptHash (after g2 l2) ->
  es1 = es2 \/
  collide (transcriptQueries (gc_cipherSuite (gr_context g1)) (gr_interimTranscriptHash g1) es1)
          (transcriptQueries (gc_cipherSuite (gr_context g1)) (gr_interimTranscriptHash g1) es2).
Proof.
  intros OK Hcs Hi H1 H2 HL E. apply commit_log_transcript in H1, H2. cbn zeta in *.
  destruct H1 as (G1 & C1 & _), H2 as (G2 & C2 & _). rewrite C1, C2, <- Hcs, <- Hi in E.
  eapply interimAfter_binding; eauto.
Qed.

(** Every list of messages has a log. *)
Lemma commit_log_exists l : forall g, exists es, commit_log g l es.
Proof.
  induction l as [|[raw now] r IH]; intros g; [exists []; constructor|].
  destruct (IH (fst (unmarshalAndProcessMessage g raw now))) as [es Hr].
  destruct (step_cases g raw now) as [(ac & c & Ha)|[Hn _]].
  - exists (entry ac :: es). econstructor; eauto.
  - exists es. apply cl_other; auto.
Qed.
End WithCrypto.
