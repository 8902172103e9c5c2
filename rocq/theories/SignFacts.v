(** The bytes handed to the signature primitive determine what is signed. *)
From Verif Require Export CodecFacts2.

(** Readers for the signed parts (proof devices, no counterpart in /repo). *)
Definition getLeafNodeBase : reader leafNode :=
  ek <- readOpaqueVec ;;
  sk <- readOpaqueVec ;;
  cred <- getCredential ;;
  caps <- getCapabilities ;;
  src <- getTag 1 [1; 2; 3] ;;
  lt <- (if src =? 1 then l <- getLifetime ;; rd_ret (Some l) else rd_ret None) ;;
  ph <- (if src =? 3 then readOpaqueVec else rd_ret []) ;;
  exts <- getExtensionVec ;;
  rd_ret (mkLeafNode ek sk cred caps src lt ph exts []).

(** A leaf node, key package, group info without its signature *)
Definition unsignedLeaf (l : leafNode) : leafNode :=
  mkLeafNode (ln_encryptionKey l) (ln_signatureKey l) (ln_credential l) (ln_capabilities l) (ln_source l)
    (ln_lifetime l) (ln_parentHash l) (ln_extensions l) [].
Definition unsignedKeyPackage (k : keyPackage) : keyPackage :=
  mkKeyPackage (kp_version k) (kp_cipherSuite k) (kp_initKey k) (kp_leafNode k) (kp_extensions k) [].
Definition unsignedGroupInfo (g : groupInfo) : groupInfo :=
  mkGroupInfo (gi_groupContext g) (gi_extensions g) (gi_confirmationTag g) (gi_signer g) [].

Lemma leafNodeBase_rt l e rest : wf_leafNode l -> putLeafNodeBase l = Ok e ->
  getLeafNodeBase (e ++ rest) = (Ok (unsignedLeaf l), rest).
Proof.
  destruct l as [ek sk cr cap src lt ph ex sig]. intros Hw He. unfold unsignedLeaf, putLeafNodeBase, wf_leafNode in *.
  cbn [ln_encryptionKey ln_signatureKey ln_credential ln_capabilities ln_source ln_lifetime ln_parentHash ln_extensions ln_signature] in *.
  destruct Hw as (Hcr & Hcap & Hex & Hsrc). unwapp. unfold getLeafNodeBase. rewrite <- ?app_assoc.
  do 4 rt_step.
  destruct Hsrc as [(-> & (l & -> & Hl) & ->) | [(-> & -> & ->) | (-> & ->)]]; tag_step.
  - erewrite rd_bind_eq; [|rt_run]. rewrite (rd_bind_eq (rd_ret []) _ _ [] _ eq_refl). rt_run.
  - match goal with H : Ok [] = Ok ?x |- _ => inversion H; subst end.
    erewrite rd_bind_eq; [|reflexivity]. erewrite rd_bind_eq; [|reflexivity]. cbn [app]. rt_run.
  - erewrite rd_bind_eq; [|reflexivity]. rt_run.
Qed.

Lemma leafNodeBase_inj l1 l2 e1 e2 r1 r2 :
  wf_leafNode l1 -> wf_leafNode l2 -> putLeafNodeBase l1 = Ok e1 -> putLeafNodeBase l2 = Ok e2 ->
  e1 ++ r1 = e2 ++ r2 -> unsignedLeaf l1 = unsignedLeaf l2 /\ r1 = r2.
Proof.
  intros H1 H2 E1 E2 E. pose proof (leafNodeBase_rt _ _ r1 H1 E1) as Q1. pose proof (leafNodeBase_rt _ _ r2 H2 E2) as Q2.
  rewrite E in Q1. rewrite Q1 in Q2. split; congruence.
Qed.

Lemma unsignedLeaf_source l1 l2 : unsignedLeaf l1 = unsignedLeaf l2 -> ln_source l1 = ln_source l2.
Proof. intros H. now apply (f_equal ln_source) in H. Qed.

Lemma leafNodeTBS_inj l1 g1 i1 l2 g2 i2 e :
  wf_leafNode l1 -> wf_leafNode l2 -> u32 i1 -> u32 i2 ->
  putLeafNodeTBS l1 g1 i1 = Ok e -> putLeafNodeTBS l2 g2 i2 = Ok e ->
  unsignedLeaf l1 = unsignedLeaf l2 /\ (ln_source l1 <> 1 -> g1 = g2 /\ i1 = i2).
Proof.
  intros W1 W2 U1 U2 H1 H2. unfold putLeafNodeTBS in *. apply wapp_ok in H1, H2.
  destruct H1 as (a1 & b1 & A1 & B1 & ->), H2 as (a2 & b2 & A2 & B2 & E).
  destruct (leafNodeBase_inj _ _ _ _ _ _ W1 W2 A1 A2 E) as [Hu ->]. split; auto.
  intros Hs. pose proof (unsignedLeaf_source _ _ Hu) as Hs2. rewrite <- Hs2 in B2.
  assert (Hc : (ln_source l1 =? 2) || (ln_source l1 =? 3) = true).
  { destruct W1 as (_ & _ & _ & [(? & _)|[(? & _)|(? & _)]]); try congruence; lia. }
  rewrite Hc in *. apply wapp_ok in B1, B2. destruct B1 as (x & y & X & Y & ->), B2 as (x' & y' & X' & Y' & E').
  destruct (opaque_app_inj _ _ _ _ _ _ X X' E') as [-> ->]. split; auto.
  destruct (u32_app_inj _ _ _ _ [] [] U1 U2 Y Y' eq_refl) as [-> _]. reflexivity.
Qed.

Lemma keyPackageTBS_inj k1 k2 e : wf_keyPackage k1 -> wf_keyPackage k2 ->
  putKeyPackageTBS k1 = Ok e -> putKeyPackageTBS k2 = Ok e -> unsignedKeyPackage k1 = unsignedKeyPackage k2.
Proof.
  intros W1 W2 H1 H2.
  assert (Hz : writeOpaqueVec [] = Ok [x00]) by reflexivity.
  assert (P1 : putKeyPackage (unsignedKeyPackage k1) = Ok (e ++ [x00])).
  { unfold putKeyPackage. change (putKeyPackageTBS (unsignedKeyPackage k1)) with (putKeyPackageTBS k1). rewrite H1. reflexivity. }
  assert (P2 : putKeyPackage (unsignedKeyPackage k2) = Ok (e ++ [x00])).
  { unfold putKeyPackage. change (putKeyPackageTBS (unsignedKeyPackage k2)) with (putKeyPackageTBS k2). rewrite H2. reflexivity. }
  destruct (app_inj_by _ _ _ keyPackage_RT (unsignedKeyPackage k1) (unsignedKeyPackage k2) _ _ [] [] W1 W2 P1 P2 eq_refl).
  assumption.
Qed.

Lemma groupInfoTBS_inj k1 k2 e : wf_groupInfo k1 -> wf_groupInfo k2 ->
  putGroupInfoTBS k1 = Ok e -> putGroupInfoTBS k2 = Ok e -> unsignedGroupInfo k1 = unsignedGroupInfo k2.
Proof.
  intros W1 W2 H1 H2.
  assert (Hz : writeOpaqueVec [] = Ok [x00]) by reflexivity.
  assert (P1 : putGroupInfo (unsignedGroupInfo k1) = Ok (e ++ [x00])).
  { unfold putGroupInfo. change (putGroupInfoTBS (unsignedGroupInfo k1)) with (putGroupInfoTBS k1). rewrite H1. reflexivity. }
  assert (P2 : putGroupInfo (unsignedGroupInfo k2) = Ok (e ++ [x00])).
  { unfold putGroupInfo. change (putGroupInfoTBS (unsignedGroupInfo k2)) with (putGroupInfoTBS k2). rewrite H2. reflexivity. }
  destruct (app_inj_by _ _ _ groupInfo_RT (unsignedGroupInfo k1) (unsignedGroupInfo k2) _ _ [] [] W1 W2 P1 P2 eq_refl).
  assumption.
Qed.

(** The sender types whose signature covers the group context *)
Definition coversContext (c : framedContent) : Prop :=
  match fc_sender c with SMember _ | SNewMemberCommit => True | _ => False end.

Lemma framedContentTBS_app_inj wf1 c1 x1 wf2 c2 x2 e1 e2 r1 r2 :
  u16 wf1 -> u16 wf2 -> wf_framedContent c1 -> wf_framedContent c2 -> wf_groupContext x1 -> wf_groupContext x2 ->
  putFramedContentTBS wf1 c1 x1 = Ok e1 -> putFramedContentTBS wf2 c2 x2 = Ok e2 -> e1 ++ r1 = e2 ++ r2 ->
  wf1 = wf2 /\ c1 = c2 /\ (coversContext c1 -> x1 = x2) /\ r1 = r2.
Proof.
  intros U1 U2 W1 W2 X1 X2 H1 H2 E. unfold putFramedContentTBS in *. unwapp. rewrite <- !app_assoc in E.
  destruct (u16_app_inj 1 1 _ _ _ _ ltac:(reflexivity) ltac:(reflexivity) W4 W E) as [_ E']. clear E.
  destruct (u16_app_inj _ _ _ _ _ _ U1 U2 W7 W3 E') as [-> E]. clear E'.
  destruct (app_inj_by _ _ _ framedContent_RT _ _ _ _ _ _ W1 W2 W6 W0 E) as [-> E']. clear E.
  split; auto. split; auto. unfold coversContext. destruct (fc_sender c2).
  - destruct (app_inj_by _ _ _ groupContext_RT _ _ _ _ _ _ X1 X2 W9 W5 E') as [-> E]. auto.
  - inversion W9; inversion W5; subst. cbn in E'. tauto.
  - inversion W9; inversion W5; subst. cbn in E'. tauto.
  - destruct (app_inj_by _ _ _ groupContext_RT _ _ _ _ _ _ X1 X2 W9 W5 E') as [-> E]. auto.
Qed.

Lemma framedContentTBM_inj wf1 c1 x1 a1 wf2 c2 x2 a2 e :
  u16 wf1 -> u16 wf2 -> wf_framedContent c1 -> wf_framedContent c2 -> wf_groupContext x1 -> wf_groupContext x2 ->
  wf_authData (body_type (fc_body c1)) a1 -> wf_authData (body_type (fc_body c2)) a2 ->
  putAuthenticatedContentTBM wf1 c1 x1 a1 = Ok e -> putAuthenticatedContentTBM wf2 c2 x2 a2 = Ok e ->
  wf1 = wf2 /\ c1 = c2 /\ (coversContext c1 -> x1 = x2) /\ a1 = a2.
Proof.
  intros U1 U2 W1 W2 X1 X2 A1 A2 H1 H2. unfold putAuthenticatedContentTBM in *. apply wapp_ok in H1, H2.
  destruct H1 as (p1 & q1 & P1 & Q1 & ->), H2 as (p2 & q2 & P2 & Q2 & E).
  destruct (framedContentTBS_app_inj _ _ _ _ _ _ _ _ _ _ U1 U2 W1 W2 X1 X2 P1 P2 E) as (-> & -> & Hx & ->).
  splits; auto.
  pose proof (authData_rt _ _ _ [] A1 Q1) as R1. pose proof (authData_rt _ _ _ [] A2 Q2) as R2. congruence.
Qed.
