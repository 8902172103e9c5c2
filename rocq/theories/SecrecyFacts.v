(** Proofs about what messages reveal. *)
From Verif Require Export SpecSecrecy.
From Verif Require Import ModelFacts ScheduleFacts WireFacts GroupFacts AgreementFacts.
From Verif Require Export SpecGroup.

(** ** Lengths *)
Lemma writeVarint_mono a b x y : writeVarint a = Ok x -> writeVarint b = Ok y -> a <= b -> lenN x <= lenN y.
Proof.
  unfold writeVarint. change (N.shiftl 1 6) with 64. change (N.shiftl 1 14) with 16384. change (N.shiftl 1 30) with 1073741824.
  intros Ha Hb L.
  destruct (N.ltb_spec a 64), (N.ltb_spec b 64); try lia;
  try destruct (N.ltb_spec a 16384); try destruct (N.ltb_spec b 16384); try lia;
  try destruct (N.ltb_spec a 1073741824); try destruct (N.ltb_spec b 1073741824); try lia; try discriminate;
  apply Ok_inj in Ha; apply Ok_inj in Hb; subst; rewrite !lenN_be; lia.
Qed.
Lemma writeOpaqueVec_len a b x y : writeOpaqueVec a = Ok x -> writeOpaqueVec b = Ok y -> lenN x = lenN y -> lenN a = lenN b.
Proof.
  unfold writeOpaqueVec. destruct (N.leb_spec (2 ^ 32) (lenN a)); [discriminate|]. destruct (N.leb_spec (2 ^ 32) (lenN b)); [discriminate|].
  intros Ha Hb L. apply wapp_ok in Ha as (u & v & Ha & Hv & ->). apply wapp_ok in Hb as (u' & v' & Hb & Hv' & ->).
  apply Ok_inj in Hv. apply Ok_inj in Hv'. subst v v'. rewrite !lenN_app in L.
  destruct (N.le_gt_cases (lenN a) (lenN b)) as [K|K].
  - pose proof (writeVarint_mono _ _ _ _ Ha Hb K). lia.
  - apply N.lt_le_incl in K as K'. pose proof (writeVarint_mono _ _ _ _ Hb Ha K'). lia.
Qed.

Section Facts.
Context {C : crypto} {secret : bytes -> Prop} (I : ideal C secret).

(** ** Secret keys *)
Lemma expand_secret cs s l c n r : secret s -> expandWithLabel cs s l c n = Ok r -> secret r /\ lenN r = n.
Proof.
  intros S H. unfold expandWithLabel in H. rinv. destruct (_ <? n); [discriminate|]. apply Ok_inj in H. subst r.
  split; [now apply (ideal_expand _ _ I)|apply (ideal_expand_len _ _ I)].
Qed.
Lemma derive_secret cs s l r : secret s -> deriveSecret cs s l = Ok r -> secret r.
Proof. intros S H. unfold deriveSecret in H. rinv. now apply expand_secret in H. Qed.
Lemma extract_secret cs a b r : secret a \/ secret b -> extract cs a b = Ok r -> secret r.
Proof. intros S H. unfold extract in H. rinv. subst r. now apply (ideal_extract _ _ I). Qed.

Definition all_secret (t : secretTree) : Prop := forall i s, nth_error t i = Some (Some s) -> secret s.
Lemma set_secret t x s t' : all_secret t -> secret s -> setN t x (Some s) = Ok t' -> all_secret t'.
Proof.
  intros A S H i r E. apply setN_ok in H as (L & ->). destruct (Nat.eq_dec i (N.to_nat x)) as [->|D].
  - rewrite upd_nth_eq in E; [congruence|]. unfold lenN in L. lia.
  - rewrite upd_nth_neq in E by congruence. eauto.
Qed.
Lemma get_secret t x s : all_secret t -> getSecret t x = Ok s -> secret s.
Proof.
  intros A H. unfold getSecret in H. rinv. destruct v; [|discriminate]. apply Ok_inj in H. subst. apply getN_ok in E. eauto.
Qed.
Lemma children_secret cs f : forall t x t', all_secret t -> deriveChildren f cs t x = Ok t' -> all_secret t'.
Proof.
  induction f as [|f IH]; intros t x t' A H; cbn [deriveChildren] in H; destruct (children x) as [[l r]|];
    try discriminate; try (apply Ok_inj in H; now subst).
  rinv. pose proof (get_secret _ _ _ A E). apply expand_secret in E1 as [? _]; auto. apply expand_secret in E2 as [? _]; auto.
  eapply IH; [|exact H]. eapply IH; [|exact E5]. eapply set_secret; [|exact H2|exact E4]. eapply set_secret; [exact A|exact H1|exact E3].
Qed.
Lemma forward_secret cs n : forall s s', secret (rs_secret s) -> ratchetForward cs s n = Ok s' -> secret (rs_secret s').
Proof.
  induction n as [|n IH]; intros s s' S H; cbn [ratchetForward] in H; [apply Ok_inj in H; now subst|].
  rinv. eapply IH; [|exact H]. unfold deriveNext, deriveTreeSecret in E. rinv. subst v. cbn [rs_secret]. now apply expand_secret in E1.
Qed.
Lemma message_secret g li ct n s : secret (gr_epochSecret g) -> messageSecret g li ct n = Ok s -> secret (rs_secret s).
Proof.
  intros S H. unfold messageSecret in H. rinv. apply derive_secret in E; auto.
  eapply forward_secret; [|exact H]. unfold deriveRatchetRoot in E2. rinv. subst v2. cbn [rs_secret].
  unfold deriveSecretTree in E0. rinv. apply children_secret in E0.
  - pose proof (get_secret _ _ _ E0 E4). now apply expand_secret in E5.
  - eapply set_secret; [|exact E|exact E2]. intros i r K. apply nth_error_In, repeat_spec in K. discriminate.
Qed.

(** ** Sealed texts *)
Lemma seal_hides cs k n aad pt ct k' n' aad' pt' ct' : secret k -> secret k' -> lenN pt = lenN pt' ->
  aeadSeal cs k n aad pt = Ok ct -> aeadSeal cs k' n' aad' pt' = Ok ct' -> ct = ct'.
Proof.
  intros S S' L H H'. unfold aeadSeal in *. apply rbind_ok in H as (d & Ed & H). apply rbind_ok in H' as (d' & Ed' & H').
  assert (d = d') by congruence. subst d'.
  destruct (negb _) in H; [discriminate|]. destruct (negb _) in H; [discriminate|].
  destruct (negb _) in H'; [discriminate|]. destruct (negb _) in H'; [discriminate|].
  apply Ok_inj in H. apply Ok_inj in H'. subst. now apply (ideal_seal _ _ I).
Qed.
Lemma seal_len cs k n aad pt ct : aeadSeal cs k n aad pt = Ok ct -> lenN ct = lenN pt + 16.
Proof.
  intros H. unfold aeadSeal in *. rinv.
  destruct (negb _) in H; [discriminate|]. destruct (negb _) in H; [discriminate|].
  apply Ok_inj in H. subst. apply (ideal_seal_len _ _ I).
Qed.

Lemma senderData_len d x : putSenderData d = Ok x -> lenN (sd_reuseGuard d) = 4 -> lenN x = 12.
Proof.
  intros H L. unfold putSenderData in H. apply wapp_ok in H as (a & b & Ha & H & ->). apply wapp_ok in H as (c & e & Hc & H & ->).
  apply Ok_inj in Ha. apply Ok_inj in Hc. apply Ok_inj in H. subst. rewrite !lenN_app, L. reflexivity.
Qed.

Lemma content_sealed cs s content pc rg ct : secret (rs_secret s) -> encryptPrivateMessageContent cs s content pc rg = Ok ct ->
  exists key nonce aad pt, secret key /\ putPrivateMessageContent pc = Ok pt /\ aeadSeal cs key nonce aad pt = Ok ct.
Proof.
  intros S H. unfold encryptPrivateMessageContent in H. apply rbind_ok in H as (pt & Hpt & H). apply rbind_ok in H as ((key & nonce) & Hk & H).
  apply rbind_ok in H as (aad & _ & H). exists key, nonce, aad, pt. split; [|split; [exact Hpt|exact H]].
  unfold derivePrivateMessageKeyAndNonce in Hk. rinv. apply pair_equal_spec in Hk as [<- _].
  unfold deriveKey, deriveTreeSecret in E. rinv. now apply expand_secret in E.
Qed.
Lemma senderData_sealed cs s sd content c ct : secret s -> encryptSenderData cs s sd content c = Ok ct -> lenN (sd_reuseGuard sd) = 4 ->
  exists key nonce aad pt, secret key /\ lenN pt = 12 /\ aeadSeal cs key nonce aad pt = Ok ct.
Proof.
  intros S H L. unfold encryptSenderData in H. rinv. exists v, v0, v1, v2. apply senderData_len in E2; auto. splits; auto.
  unfold expandSenderDataKey in E. rinv. now apply expand_secret in E.
Qed.

Lemma put_private_len gid ep t ad esd c c' m m' :
  putMlsMessage (MPrivate (mkPrivateMessage gid ep t ad esd c)) = Ok m -> putMlsMessage (MPrivate (mkPrivateMessage gid ep t ad esd c')) = Ok m' ->
  lenN m = lenN m' -> lenN c = lenN c'.
Proof.
  unfold putMlsMessage, putPrivateMessage. cbn [msg_wireFormat privm_groupID privm_epoch privm_contentType privm_authenticatedData privm_encryptedSenderData privm_ciphertext].
  intros H H' L.
  apply wapp_ok in H as (a1 & x1 & A1 & H & ->). apply wapp_ok in H' as (b1 & y1 & B1 & H' & ->).
  apply wapp_ok in H as (a2 & x2 & A2 & H & ->). apply wapp_ok in H' as (b2 & y2 & B2 & H' & ->).
  apply wapp_ok in H as (a3 & x3 & A3 & H & ->). apply wapp_ok in H' as (b3 & y3 & B3 & H' & ->).
  apply wapp_ok in H as (a4 & x4 & A4 & H & ->). apply wapp_ok in H' as (b4 & y4 & B4 & H' & ->).
  apply wapp_ok in H as (a5 & x5 & A5 & H & ->). apply wapp_ok in H' as (b5 & y5 & B5 & H' & ->).
  apply wapp_ok in H as (a6 & x6 & A6 & H & ->). apply wapp_ok in H' as (b6 & y6 & B6 & H' & ->).
  apply wapp_ok in H as (a7 & x7 & A7 & H & ->). apply wapp_ok in H' as (b7 & y7 & B7 & H' & ->).
  rewrite A1 in B1. rewrite A2 in B2. rewrite A3 in B3. rewrite A4 in B4. rewrite A5 in B5. rewrite A6 in B6. rewrite A7 in B7.
  apply Ok_inj in B1, B2, B3, B4, B5, B6, B7. subst. rewrite !lenN_app in L.
  apply (writeOpaqueVec_len _ _ _ _ H H'). lia.
Qed.

Lemma private_hides g g' b b' pc pc' rg rg' m m' : same_header g g' -> secret (gr_epochSecret g) -> secret (gr_epochSecret g') ->
  lenN rg = 4 -> lenN rg' = 4 -> body_type b = body_type b' ->
  groupEncryptPrivateMessage g (ownContent g b) pc rg = Ok m -> groupEncryptPrivateMessage g' (ownContent g' b') pc' rg' = Ok m' ->
  lenN m = lenN m' \/ (forall x x', putPrivateMessageContent pc = Ok x -> putPrivateMessageContent pc' = Ok x' -> lenN x = lenN x') -> m = m'.
Proof.
  intros (Ecs & Eid & Eep) S S' G G' T H H' L. unfold groupEncryptPrivateMessage in H, H'.
  apply rbind_ok in H as (s & Hs & H). apply rbind_ok in H' as (s' & Hs' & H').
  apply rbind_ok in H as (ds & Hds & H). apply rbind_ok in H' as (ds' & Hds' & H').
  apply rbind_ok in H as (x & Hx & H). apply rbind_ok in H' as (x' & Hx' & H').
  apply message_secret in Hs; auto. apply message_secret in Hs'; auto. apply derive_secret in Hds; auto. apply derive_secret in Hds'; auto.
  unfold encryptPrivateMessage in Hx, Hx'.
  apply rbind_ok in Hx as (c & Hc & Hx). apply rbind_ok in Hx' as (c' & Hc' & Hx').
  apply rbind_ok in Hx as (e & He & Hx). apply rbind_ok in Hx' as (e' & He' & Hx').
  apply Ok_inj in Hx. apply Ok_inj in Hx'. subst x x'. cbn [ownContent fc_groupID fc_epoch fc_body fc_authenticatedData] in *.
  apply content_sealed in Hc as (k & n & aad & pt & K & Hpt & Hc); auto. apply content_sealed in Hc' as (k' & n' & aad' & pt' & K' & Hpt' & Hc'); auto.
  apply senderData_sealed in He as (k2 & n2 & aad2 & pt2 & K2 & L2 & He); auto. apply senderData_sealed in He' as (k3 & n3 & aad3 & pt3 & K3 & L3 & He'); auto.
  rewrite <- Ecs in Hc', He'. rewrite <- Eid, <- Eep, <- T in H'.
  assert (e = e') by (eapply seal_hides; [exact K2|exact K3| |exact He|exact He']; congruence). subst e'.
  assert (c = c'). { eapply seal_hides; [exact K|exact K'| |exact Hc|exact Hc']. destruct L as [L|L]; [|auto].
    pose proof (put_private_len _ _ _ _ _ _ _ _ _ H H' L). apply seal_len in Hc. apply seal_len in Hc'. lia. }
  subst c'. congruence.
Qed.

Theorem application_hides g g' d d' rs rs' rg rg' m m' : same_header g g' -> secret (gr_epochSecret g) -> secret (gr_epochSecret g') ->
  lenN rg = 4 -> lenN rg' = 4 -> createApplicationMessage g d rs rg = Ok m -> createApplicationMessage g' d' rs' rg' = Ok m' ->
  lenN m = lenN m' -> m = m'.
Proof.
  intros E S S' G G' H H' L. unfold createApplicationMessage in *. apply rbind_ok in H as (pc & _ & H). apply rbind_ok in H' as (pc' & _ & H').
  exact (private_hides _ _ _ _ _ _ _ _ _ _ E S S' G G' eq_refl H H' (or_introl L)).
Qed.

Lemma writeOpaqueVec_same a b x y : lenN a = lenN b -> writeOpaqueVec a = Ok x -> writeOpaqueVec b = Ok y -> lenN x = lenN y.
Proof.
  intros L A B. unfold writeOpaqueVec in A, B. rewrite <- L in B. destruct (_ <=? _); [discriminate|].
  apply wapp_ok in A as (u & v & U & V & ->). apply wapp_ok in B as (u' & v' & U' & V' & ->).
  apply Ok_inj in V. apply Ok_inj in V'. subst. assert (u = u') by congruence. subst. rewrite !lenN_app. now rewrite L.
Qed.
Lemma sigSign_size size alg k r m s : (forall alg key rnd m s, cr_sign C alg key rnd m = Some s -> lenN s = size alg) ->
  sigSign alg k r m = Ok s -> lenN s = size alg.
Proof.
  intros Z H. unfold sigSign in H. destruct (cr_sign C alg k r m) as [x|] eqn:E; [|destruct alg; try destruct (_ =? _); discriminate].
  assert (s = x) by (destruct alg; try destruct (_ =? _); congruence). subst. eauto.
Qed.
Lemma application_signed cs key rnd g d ctx pc : signPrivateMessageContent cs key rnd (ownContent g (BApplication d)) ctx = Ok pc ->
  exists sig tbs desc, pc = mkPrivateMessageContent (BApplication d) (mkAuthData sig []) /\ describe cs = Ok desc /\ sigSign (sd_sig desc) key rnd tbs = Ok sig.
Proof.
  intros H. unfold signPrivateMessageContent, signAuthenticatedContent, signWithLabel in H. rinv. subst. cbn.
  match goal with A : describe cs = Ok ?x, B : sigSign _ _ _ ?y = Ok ?z |- _ => exists z, y, x end. auto.
Qed.

Theorem application_hides_data g g' d d' rs rs' rg rg' m m' : sized_signatures C ->
  same_header g g' -> secret (gr_epochSecret g) -> secret (gr_epochSecret g') ->
  lenN rg = 4 -> lenN rg' = 4 -> createApplicationMessage g d rs rg = Ok m -> createApplicationMessage g' d' rs' rg' = Ok m' ->
  lenN d = lenN d' -> m = m'.
Proof.
  intros (size & Z) E S S' G G' H H' L. unfold createApplicationMessage in *. apply rbind_ok in H as (pc & Hp & H). apply rbind_ok in H' as (pc' & Hp' & H').
  refine (private_hides _ _ _ _ _ _ _ _ _ _ E S S' G G' eq_refl H H' (or_intror _)). destruct E as (Ecs & _ & _). rewrite <- Ecs in Hp'.
  apply application_signed in Hp as (sig & tbs & ds & -> & Hd & Hs). apply application_signed in Hp' as (sig' & tbs' & ds' & -> & Hd' & Hs').
  assert (ds = ds') by congruence. subst ds'. apply (sigSign_size size) in Hs; auto. apply (sigSign_size size) in Hs'; auto.
  intros x x' X X'. unfold putPrivateMessageContent, putAuthData in X, X'. cbn [pmc_body pmc_auth putBody body_type ad_signature] in X, X'.
  apply wapp_ok in X as (a & b & A & X & ->). apply wapp_ok in X' as (a' & b' & A' & X' & ->).
  apply wapp_ok in X as (e & f & B & X & ->). apply wapp_ok in X' as (e' & f' & B' & X' & ->).
  change (1 =? 3) with false in *. apply Ok_inj in X. apply Ok_inj in X'. subst f f'. rewrite !lenN_app.
  rewrite (writeOpaqueVec_same _ _ _ _ L A A'). rewrite (writeOpaqueVec_same sig sig' _ _ ltac:(congruence) B B'). reflexivity.
Qed.

(** ** Welcomes *)
Theorem commit_hides g g' kps kps' rs rs' ri ri' rh rh' rg rg' g1 g1' w w' m m' :
  same_header g g' -> secret (gr_epochSecret g) -> secret (gr_epochSecret g') -> lenN rg = 4 -> lenN rg' = 4 ->
  createWelcome g kps rs ri rh rg = (g1, Ok (w, m)) -> createWelcome g' kps' rs' ri' rh' rg' = (g1', Ok (w', m')) ->
  lenN m = lenN m' -> m = m'.
Proof.
  intros E S S' G G' H H' L. apply createWelcome_inv in H as (_ & h & t & _ & _ & H). apply createWelcome_inv in H' as (_ & h' & t' & _ & _ & H').
  apply finishWelcome_inv in H as (th & nh & ps & pc & cf & j & es & tg & rt & gi & ei & se & _ & _ & _ & _ & _ & _ & _ & _ & _ & _ & _ & _ & H & _).
  apply finishWelcome_inv in H' as (th' & nh' & ps' & pc' & cf' & j' & es' & tg' & rt' & gi' & ei' & se' & _ & _ & _ & _ & _ & _ & _ & _ & _ & _ & _ & _ & H' & _).
  exact (private_hides _ _ _ _ _ _ _ _ _ _ E S S' G G' eq_refl H H' (or_introl L)).
Qed.

Lemma welcomeKey_secret cs j p k n : secret j -> welcomeKeyNonce cs j p = Ok (k, n) -> secret k.
Proof.
  intros S H. unfold welcomeKeyNonce, extractWelcomeSecret in H. rinv. apply pair_equal_spec in H as [<- _].
  apply extract_secret in E4; auto. apply derive_secret in E; auto. now apply expand_secret in E3.
Qed.
Lemma joiner_secret ctx i c j nh : secret i -> extractSize (gc_cipherSuite ctx) = Ok nh -> extractJoinerSecret ctx i c = Ok j -> secret j /\ lenN j = nh.
Proof.
  intros S N H. unfold extractJoinerSecret in H. rinv. assert (v1 = nh) by congruence. subst v1. apply extract_secret in E; auto.
  now apply expand_secret in H.
Qed.
Lemma groupInfo_hides gi gi' j j' p p' x x' : gc_cipherSuite (gi_groupContext gi) = gc_cipherSuite (gi_groupContext gi') ->
  secret j -> secret j' -> groupInfoEncrypt gi j p = Ok x -> groupInfoEncrypt gi' j' p' = Ok x' -> lenN x = lenN x' -> x = x'.
Proof.
  intros E S S' H H' L. unfold groupInfoEncrypt in *. rewrite <- E in H'.
  apply rbind_ok in H as ((k & n) & Hk & H). apply rbind_ok in H' as ((k' & n') & Hk' & H').
  apply rbind_ok in H as (pt & _ & H). apply rbind_ok in H' as (pt' & _ & H').
  apply welcomeKey_secret in Hk; auto. apply welcomeKey_secret in Hk'; auto.
  eapply seal_hides; [exact Hk|exact Hk'| |exact H|exact H']. apply seal_len in H. apply seal_len in H'. lia.
Qed.
Lemma groupSecrets_len j j' x x' : lenN j = lenN j' -> putGroupSecrets (mkGroupSecrets j None []) = Ok x ->
  putGroupSecrets (mkGroupSecrets j' None []) = Ok x' -> lenN x = lenN x'.
Proof.
  intros L H H'. unfold putGroupSecrets in *. cbn [gs_joinerSecret gs_pathSecret gs_psks] in *.
  apply wapp_ok in H as (a & r & A & H & ->). apply wapp_ok in H' as (b & r' & B & H' & ->).
  assert (r = r') by congruence. subst r'. rewrite !lenN_app. f_equal. exact (writeOpaqueVec_same _ _ _ _ L A B).
Qed.
Lemma secrets_hide cs j j' egi kps : Forall (fun kp => private C (kp_initKey kp)) kps -> lenN j = lenN j' -> forall rnds s s',
  encryptSecretsFor cs (mkGroupSecrets j None []) egi kps rnds = Ok s ->
  encryptSecretsFor cs (mkGroupSecrets j' None []) egi kps rnds = Ok s' -> s = s'.
Proof.
  intros P L. induction P as [|kp kps P _ IH]; intros rnds s s' H H'; cbn [encryptSecretsFor] in *; [congruence|].
  apply rbind_ok in H as (ref & Hr & H). apply rbind_ok in H' as (ref' & Hr' & H').
  apply rbind_ok in H as (ct & Hc & H). apply rbind_ok in H' as (ct' & Hc' & H').
  apply rbind_ok in H as (r & He & H). apply rbind_ok in H' as (r' & He' & H').
  assert (ref = ref') by congruence. subst ref'. assert (r = r') by (eapply IH; eauto). subst r'.
  assert (ct = ct'); [|congruence]. unfold groupSecretsEncrypt in *.
  apply rbind_ok in Hc as (x & Hx & Hc). apply rbind_ok in Hc' as (x' & Hx' & Hc'). pose proof (groupSecrets_len _ _ _ _ L Hx Hx') as Lx.
  assert (K : encryptWithLabel cs (kp_initKey kp) (str "Welcome") egi x (hd [] rnds) = encryptWithLabel cs (kp_initKey kp) (str "Welcome") egi x' (hd [] rnds)).
  { unfold encryptWithLabel. destruct (putLabelled _ _); cbn [rbind]; auto. destruct (describe cs) as [d| | |]; cbn [rbind]; auto. now rewrite (P _ _ _ _ _ _ _ Lx). }
  rewrite <- K in Hc'. congruence.
Qed.

Theorem welcome_hides g g' kps rs rs' ri ri' rh rg rg' g1 g1' w w' m m' :
  gc_cipherSuite (gr_context g) = gc_cipherSuite (gr_context g') -> secret (gr_initSecret g) -> secret (gr_initSecret g') ->
  Forall (fun kp => private C (kp_initKey kp)) kps ->
  createWelcome g kps rs ri rh rg = (g1, Ok (w, m)) -> createWelcome g' kps rs' ri' rh rg' = (g1', Ok (w', m')) ->
  lenN (w_encryptedGroupInfo w) = lenN (w_encryptedGroupInfo w') -> w = w'.
Proof.
  intros E S S' P H H'. apply createWelcome_inv in H as (_ & h & t & _ & _ & H). apply createWelcome_inv in H' as (_ & h' & t' & _ & _ & H').
  apply finishWelcome_inv in H as (th & nh & ps & pc & cf & j & es & tg & rt & gi & ei & se & _ & Hnh & _ & _ & _ & Hj & _ & _ & _ & Hgi & Hei & Hse & _ & ->).
  apply finishWelcome_inv in H' as (th' & nh' & ps' & pc' & cf' & j' & es' & tg' & rt' & gi' & ei' & se' & _ & Hnh' & _ & _ & _ & Hj' & _ & _ & _ & Hgi' & Hei' & Hse' & _ & ->).
  rewrite <- E in *. assert (nh = nh') by congruence. subst nh'. cbn [w_encryptedGroupInfo]. intros L.
  apply (joiner_secret _ _ _ _ nh) in Hj as (Sj & Lj); [|auto|exact Hnh].
  apply (joiner_secret _ _ _ _ nh) in Hj' as (Sj' & Lj'); [|auto|cbn [nextContext gc_cipherSuite]; rewrite <- E; exact Hnh].
  unfold groupInfoSign in Hgi, Hgi'. rinv. subst gi gi'.
  assert (ei = ei'). { eapply groupInfo_hides; [|exact Sj|exact Sj'|exact Hei|exact Hei'|exact L]. exact E. }
  subst ei'. f_equal. eapply secrets_hide; [exact P| |exact Hse|exact Hse']. congruence.
Qed.
End Facts.

(** ** Forgetting *)
Section Forgetting.
Context {C : crypto} {secret : bytes -> Prop} (O : one_way C secret).

Lemma derive_any cs s s' l : secret s -> secret s' -> deriveSecret cs s l = deriveSecret cs s' l.
Proof.
  intros S S'. unfold deriveSecret, expandWithLabel. destruct (extractSize cs) as [nh| | |]; cbn [rbind]; auto.
  destruct (putKdfLabel _ _ _); cbn [rbind]; auto. destruct (describe cs) as [d| | |]; cbn [rbind]; auto.
  destruct (_ <? nh); auto. now rewrite (one_way_expand _ _ O _ s s').
Qed.

Section Group.
Variables (g : group) (e i p : bytes).
Hypotheses (Se : secret (gr_epochSecret g)) (Si : secret (gr_initSecret g)) (Se' : secret e) (Si' : secret i).
Let g2 := with_secrets g e i p.

Lemma public_any m : verifyPublicMessage g2 m = verifyPublicMessage g m.
Proof.
  unfold verifyPublicMessage, g2, with_secrets, gr_value. cbn [gr_context gr_epochSecret gr_heap gr_tree].
  now rewrite (derive_any _ _ _ _ Se' Se).
Qed.
Lemma messageSecret_any li ct n : messageSecret g2 li ct n = messageSecret g li ct n.
Proof.
  unfold messageSecret, g2, with_secrets. cbn [gr_context gr_epochSecret gr_tree]. now rewrite (derive_any _ _ _ _ Se' Se).
Qed.
Lemma private_any m : openPrivateMessage g2 m = openPrivateMessage g m.
Proof.
  unfold openPrivateMessage. change (gr_context g2) with (gr_context g). change (gr_epochSecret g2) with e. change (gr_value g2) with (gr_value g).
  rewrite (derive_any _ _ _ _ Se' Se).
  destruct (guard _ _); cbn [rbind]; auto. destruct (guard _ _); cbn [rbind]; auto.
  destruct (deriveSecret _ _ _); cbn [rbind]; auto. destruct (decryptSenderData _ _ _); cbn [rbind]; auto. now rewrite messageSecret_any.
Qed.
Lemma carries_any raw ac : carries g raw ac -> carries g2 raw ac.
Proof.
  intros H. destruct H as [m Hm|m sds sd s pc Hm Hds Hsd Hs Hpc]; [now apply carries_public|].
  eapply carries_private; [exact Hm| |exact Hsd| |exact Hpc].
  - change (gr_context g2) with (gr_context g). change (gr_epochSecret g2) with e. now rewrite (derive_any _ _ _ _ Se' Se).
  - now rewrite messageSecret_any.
Qed.

Lemma nextEpoch_any ac th cs ids psks : nextEpoch g2 ac th cs ids psks = nextEpoch g ac th cs ids psks.
Proof.
  unfold nextEpoch, extractJoinerSecret, extract. change (gr_context g2) with (gr_context g). change (gr_interimTranscriptHash g2) with (gr_interimTranscriptHash g).
  change (gr_initSecret g2) with i.
  destruct (confirmedTranscriptHash _ _ _ _ _); cbn [rbind]; auto. destruct (nextInterimTranscriptHash _ _ _); cbn [rbind]; auto.
  destruct (describe _); cbn [rbind]; auto. now rewrite (one_way_extract _ _ O _ _ _ _ Si' Si).
Qed.
Lemma finishCommit_any ac c h t ids psks now : finishCommit g2 ac c h t ids psks now = finishCommit g ac c h t ids psks now.
Proof.
  unfold finishCommit. change (gr_context g2) with (gr_context g). change (gr_tree g2) with (gr_tree g). change (gr_privTree g2) with (gr_privTree g).
  change (gr_myLeafIndex g2) with (gr_myLeafIndex g). change (gr_signaturePriv g2) with (gr_signaturePriv g).
  destruct (carryPriv _ _ _); cbn [rbind]; auto. destruct (extractSize _); cbn [rbind]; auto.
  assert (K : forall li up h t priv now, processPath g2 li up h t priv now = processPath g li up h t priv now) by reflexivity.
  assert (F : forall r : res (heap * ptree * bytes * bytes * privTree),
    (let! (h1, t1, treeHash, commitSecret, priv1) := r in
     let! (ctx, interim, pskSecret, epochSecret, initSecret) := nextEpoch g2 ac treeHash commitSecret ids psks in
     Ok (mkGroup h1 t1 ctx interim pskSecret epochSecret initSecret (gr_myLeafIndex g) priv1 (gr_signaturePriv g) [])) =
    (let! (h1, t1, treeHash, commitSecret, priv1) := r in
     let! (ctx, interim, pskSecret, epochSecret, initSecret) := nextEpoch g ac treeHash commitSecret ids psks in
     Ok (mkGroup h1 t1 ctx interim pskSecret epochSecret initSecret (gr_myLeafIndex g) priv1 (gr_signaturePriv g) []))).
  { intros [[[[[h1 t1] th] cs] pr]| | |]; cbn [rbind]; auto. now rewrite nextEpoch_any. }
  destruct (c_path c); [rewrite K|]; apply F.
Qed.
Lemma processCommit_any ac ids psks now g' : processCommit g ac ids psks now = (g', Ok tt) -> processCommit g2 ac ids psks now = (g', Ok tt).
Proof.
  unfold processCommit. change (gr_heap g2) with (gr_heap g). change (gr_tree g2) with (gr_tree g).
  assert (K : forall li c, checkCommit g2 li c = checkCommit g li c) by reflexivity.
  destruct (fc_body (ac_content ac)) as [| |c]; try discriminate. rewrite K. destruct (checkCommit _ _ _) as [[ps ss]| | |]; try discriminate.
  destruct (applyH _ _ _ _) as [[h t]| | |]; try discriminate. rewrite finishCommit_any. now destruct (finishCommit _ _ _ _ _ _ _ _).
Qed.
Theorem forgets raw now ac c g' : accepts_commit g raw now ac c g' -> accepts_commit g2 raw now ac c g'.
Proof.
  intros (Hc & Hb & H). split; [now apply carries_any|]. split; [exact Hb|].
  unfold unmarshalAndProcessMessage, processPublicMessage, processPrivateMessage in *.
  destruct (unmarshal getMlsMessage raw) as [[m|m| | |]| | |] eqn:Er; try discriminate.
  - rewrite public_any. destruct (verifyPublicMessage g m) as [ac'| | |] eqn:V; try discriminate.
    apply verifyPublicMessage_ok in V as (-> & _ & _).
    rewrite <- (carries_fun _ _ _ _ Hc (carries_public _ _ _ Er)) in *. rewrite Hb in *.
    unfold noData in *. destruct (processCommit g ac [] [] now) as [g1 [[]| | |]] eqn:E; try discriminate.
    apply processCommit_any in E. rewrite E. exact H.
  - rewrite private_any. destruct (openPrivateMessage g m) as [ac'| | |] eqn:V; try discriminate.
    apply (openPrivateMessage_ok _ _ _ _ Er) in V as (V & _). rewrite <- (carries_fun _ _ _ _ Hc V) in *. rewrite Hb in *.
    unfold noData in *. destruct (processCommit g ac [] [] now) as [g1 [[]| | |]] eqn:E; try discriminate.
    apply processCommit_any in E. rewrite E. exact H.
Qed.
End Group.
End Forgetting.
