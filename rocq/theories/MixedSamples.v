(** Bob joins with the private keys of Carol. *)
From Verif Require Export MixedFacts ViewSamples.

(** One step of the toy digest *)
Definition toyStep (acc : N) (b : byte) : N := N.land (N.shiftl acc 8 + acc + b2n b + 7) (N.ones 48).
Lemma toyStep_Z a b : Z.of_N (toyStep a b) = ((257 * Z.of_N a + Z.of_N (b2n b) + 7) mod 2 ^ 48)%Z.
Proof.
  unfold toyStep. rewrite N.land_ones, N.shiftl_mul_pow2, N2Z.inj_mod. f_equal. change (2 ^ 8) with 256. lia.
Qed.
Definition toyFold (l : bytes) (a : N) : N := fold_left toyStep l a.
Lemma toyFold_affine l : forall a c, (Z.of_N (toyFold l (a + c)) mod 2 ^ 48 = (257 ^ Z.of_nat (length l) * Z.of_N a + Z.of_N (toyFold l c)) mod 2 ^ 48)%Z.
Proof.
  induction l as [|x l IH]; intros a c.
  - cbn [toyFold fold_left length]. rewrite Z.pow_0_r. f_equal. lia.
  - cbn [length]. change (toyFold (x :: l) (a + c)) with (toyFold l (toyStep (a + c) x)). change (toyFold (x :: l) c) with (toyFold l (toyStep c x)).
    pose proof (IH (toyStep (a + c) x) 0) as H1. pose proof (IH (toyStep c x) 0) as H2. rewrite !N.add_0_r in *. rewrite H1.
    rewrite (Z.add_mod (_ * Z.of_N a) (Z.of_N _)), H2 by discriminate. rewrite <- Z.add_mod by discriminate.
    rewrite !toyStep_Z. rewrite Nat2Z.inj_succ, Z.pow_succ_r by lia. set (P := (257 ^ Z.of_nat (length l))%Z). set (F := Z.of_N (toyFold l 0)).
    assert (E : forall u v, ((257 * P * u + (P * (v mod 2 ^ 48) + F)) mod 2 ^ 48 = (257 * P * u + (P * v + F)) mod 2 ^ 48)%Z).
    { intros u v. rewrite !Z.add_assoc. rewrite (Z.add_mod (_ + P * (v mod _)) F), (Z.add_mod (_ + P * v) F) by discriminate. f_equal. f_equal.
      rewrite (Z.add_mod _ (P * (v mod _))), (Z.add_mod _ (P * v)) by discriminate. rewrite Zmult_mod_idemp_r. reflexivity. }
    rewrite E. pose proof (E 0%Z (257 * Z.of_N (a + c) + Z.of_N (b2n x) + 7)%Z) as E0. rewrite Z.mul_0_r, !Z.add_0_l in E0. rewrite E0.
    f_equal. rewrite N2Z.inj_add. ring.
Qed.
Lemma toyInverse n : ((257 ^ Z.of_nat n * 280379743338241 ^ Z.of_nat n) mod 2 ^ 48 = 1)%Z.
Proof.
  rewrite <- Z.pow_mul_l. induction n as [|n IH]; [reflexivity|]. rewrite Nat2Z.inj_succ, Z.pow_succ_r by lia. rewrite Z.mul_mod, IH by discriminate. reflexivity.
Qed.
Lemma toyFold_differ l a b : (Z.of_N a mod 2 ^ 48 <> Z.of_N b mod 2 ^ 48)%Z -> toyFold l a <> toyFold l b.
Proof.
  intros D E. apply D. pose proof (toyFold_affine l a 0) as H1. pose proof (toyFold_affine l b 0) as H2. rewrite N.add_0_r in *. rewrite E, H2 in H1. clear H2.
  pose proof (toyInverse (length l)) as V. revert H1 V. generalize (257 ^ Z.of_nat (length l))%Z as P. generalize (280379743338241 ^ Z.of_nat (length l))%Z as Q.
  generalize (Z.of_N (toyFold l 0)) as F. generalize (Z.of_N a) as x, (Z.of_N b) as y. clear. intros y x F Q P H V.
  assert (R : forall z, (z mod 2 ^ 48 = ((P * z + F) mod 2 ^ 48 - F) * Q mod 2 ^ 48)%Z).
  { intros z. rewrite Z.mul_mod, Zminus_mod_idemp_l, <- Z.mul_mod by discriminate. replace ((P * z + F - F) * Q)%Z with (z * (P * Q))%Z by ring.
    rewrite Z.mul_mod, V, Z.mul_1_r, !Z.mod_mod by discriminate. reflexivity. }
  rewrite (R x), (R y). now rewrite H.
Qed.

Lemma toyFold_app p q a : toyFold (p ++ q) a = toyFold q (toyFold p a).
Proof. apply fold_left_app. Qed.
Definition toyKey (l : bytes) : Z := Z.of_N (toyFold (be 4 (lenN l) ++ l) 0) mod 2 ^ 48.
Lemma toyFold_bound l : forall a, a < 2 ^ 48 -> toyFold l a < 2 ^ 48.
Proof.
  induction l as [|x l IH]; intros a H; [exact H|]. apply IH. unfold toyStep. rewrite N.land_ones. apply N.mod_lt. discriminate.
Qed.
Lemma toyFold_bound1 x l a : toyFold (x :: l) a < 2 ^ 48.
Proof. change (toyFold (x :: l) a) with (toyFold l (toyStep a x)). apply toyFold_bound. unfold toyStep. rewrite N.land_ones. apply N.mod_lt. discriminate. Qed.
Lemma toySig_differ pub priv m : lenN pub = lenN priv -> toyKey pub <> toyKey priv -> toySig priv m <> toySig pub m.
Proof.
  intros L D E. unfold toySig, toyDigest, toyJoin in E. cbn [map concat] in E. rewrite !app_nil_r in E.
  change (fun acc b => N.land (N.shiftl acc 8 + acc + b2n b + 7) (N.ones 48)) with toyStep in E.
  change (fold_left toyStep) with toyFold in E. rewrite !lenN_app, L in E.
  revert E. set (i := _ + 1). unfold toyKey in D. set (R := be 4 (lenN m) ++ m). rewrite L in D. intros E.
  assert (B : forall q, toyFold ((be 4 (lenN priv) ++ q) ++ R) i < 2 ^ (8 * N.of_nat (N.to_nat 32))).
  { intros q. pose proof (be_length 4 (lenN priv)) as Lb. destruct (be 4 (lenN priv)) as [|b r]; [discriminate|]. cbn [app].
    eapply N.lt_trans; [apply toyFold_bound1|]. reflexivity. }
  fold R in E. apply be_inj in E; [|apply B..]. rewrite (toyFold_app (be 4 (lenN priv) ++ priv)), (toyFold_app (be 4 (lenN priv) ++ pub)) in E. revert E. apply toyFold_differ. intros E. apply D.
  pose proof (toyFold_affine (be 4 (lenN priv) ++ priv) i 0) as H1. pose proof (toyFold_affine (be 4 (lenN priv) ++ pub) i 0) as H2.
  rewrite N.add_0_r in *. rewrite H1, H2 in E. clear H1 H2 B.
  assert (Le : length (be 4 (lenN priv) ++ priv) = length (be 4 (lenN priv) ++ pub)) by (rewrite !app_length; unfold lenN in L; lia). rewrite Le in E.
  revert E. generalize (257 ^ Z.of_nat (length (be 4 (lenN priv) ++ pub)) * Z.of_N i)%Z as K. intros K E.
  assert (Q : forall z, (z mod 2 ^ 48 = ((K + z) mod 2 ^ 48 - K) mod 2 ^ 48)%Z) by (intros z; rewrite Zminus_mod_idemp_l; f_equal; lia).
  rewrite (Q (Z.of_N (toyFold (be 4 (lenN priv) ++ pub) 0))), (Q (Z.of_N (toyFold (be 4 (lenN priv) ++ priv) 0))). now rewrite E.
Qed.
Lemma toy_strangers pub priv : lenN pub = 32 -> lenN priv = 32 -> toyKey pub <> toyKey priv -> strangers toy Ed25519 pub priv.
Proof.
  intros L1 L2 D rnd m s H. unfold sigSign in H. rewrite L2 in H. apply Ok_inj in H. subst s. unfold sigVerify. rewrite L1. cbn [N.eqb Pos.eqb andb].
  f_equal. cbn [cr_verify toy]. destruct (bytes_eqb (toySig priv m) (toySig pub m)) eqn:E; [|reflexivity]. apply bytes_eqb_true in E.
  exfalso. revert E. apply toySig_differ; congruence.
Qed.

Definition mixed : keyPairPackage := with_private bob (kpp_encryptionKey carol) (kpp_signatureKey carol).
Definition gm : group := Eval vm_compute in getOr noGroup (@groupFromWelcome toy (fst (snd firstWelcome)) mixed clock).
Definition gmSays : bytes := Eval vm_compute in getOr [] (@createApplicationMessage toy gm (str "hello") [] (str "efgh")).
Definition mixedLeaf : leafNode := Eval vm_compute in kp_leafNode (kpp_public bob).

Lemma mixed_example : exists e,
  @groupFromWelcome toy (fst (snd firstWelcome)) bob clock = Ok gb /\ @groupFromWelcome toy (fst (snd firstWelcome)) mixed clock = Ok gm /\
  @signs_as_stranger toy gm /\ @obtained toy gm /\ same_epoch gm ga /\
  @createApplicationMessage toy gm (str "hello") [] (str "efgh") = Ok gmSays /\
  @unmarshalAndProcessMessage toy ga gmSays clock = (ga, Err e) /\
  @createApplicationMessage toy gb (str "hello") [] (str "efgh") = Ok w35raw /\
  @unmarshalAndProcessMessage toy ga w35raw clock = (ga, Ok (Some (str "hello"))).
Proof.
  assert (J : @groupFromWelcome toy (fst (snd firstWelcome)) mixed clock = Ok gm) by (vm_compute; reflexivity).
  eexists. split; [exact gb_joined|]. split; [exact J|]. split.
  { exists mixedLeaf, (mkSuiteDesc SHA256 X25519 SHA256 AES128GCM Ed25519). split; [vm_compute; reflexivity|]. split; [vm_compute; reflexivity|].
    apply toy_strangers; [vm_compute; reflexivity..|]. vm_compute. intros F. discriminate F. }
  split; [exact (obtained_joined _ _ _ _ J)|]. split; [vm_compute; repeat split|]. split; [vm_compute; reflexivity|]. split; [vm_compute; reflexivity|].
  split; vm_compute; reflexivity.
Qed.
