(** Dave's key package and leaf with two extensions of the same type, and a
    Welcome with two ratchet trees. *)
From Verif Require Export TwiceFacts PathSamples.

Definition twiceExts : list extension := [mkExtension 65281 (str "one"); mkExtension 65281 (str "two")].
Definition twiceLeafNode : leafNode := Eval vm_compute in
  let l := kp_leafNode (kpp_public dave) in let c := ln_capabilities l in
  getOr l (@leafNodeSign toy 1 [] 0 (kpp_signatureKey dave) []
    (mkLeafNode (ln_encryptionKey l) (ln_signatureKey l) (ln_credential l)
      (mkCapabilities (caps_versions c) (caps_cipherSuites c) [65281] (caps_proposals c) (caps_credentials c))
      (ln_source l) (ln_lifetime l) (ln_parentHash l) twiceExts [])).
Definition signedTwice (exts : list extension) : keyPackage :=
  let k := kpp_public dave in
  getOr k (@keyPackageSign toy (kpp_signatureKey dave) [] (mkKeyPackage (kp_version k) (kp_cipherSuite k) (kp_initKey k) twiceLeafNode exts [])).
Definition onceKP : keyPackage := Eval vm_compute in signedTwice [mkExtension 65281 (str "one")].
Definition twiceKP : keyPackage := Eval vm_compute in signedTwice twiceExts.
Definition twiceDave : keyPairPackage := mkKeyPairPackage twiceKP (kpp_initKey dave) (kpp_encryptionKey dave) (kpp_signatureKey dave).

Definition w119raw : bytes := Eval vm_compute in
  getOr [] (@sendPublic toy gb 1 (BCommit (mkCommit [PorProposal (PAdd twiceKP)] None)) (str "s") []).
Definition w119 := Eval vm_compute in getSome (noMessage, noCommit, noGroup) (acceptedPublic ga w119raw).
Lemma w119_accepted : acceptedPublic ga w119raw = Some w119.
Proof. vm_compute. reflexivity. Qed.
Lemma not_once : ~ once twiceExts.
Proof. intros H. inversion H as [|? ? N _]; subst. apply N. now left. Qed.

Theorem repeated_extensions : exists (C : crypto) g raw now ac c g' li l k,
  crypto_ok C /\ obtained g /\ accepts_commit g raw now ac c g' /\ leaf_at (gr_value g) li = None /\ leaf_at (gr_value g') li = Some l /\ ~ once (ln_extensions l) /\
  In (PorProposal (PAdd k)) (c_proposals c) /\ ~ once (kp_extensions k).
Proof.
  exists toy, ga, w119raw, clock, (publicContent (fst (fst w119))), (snd (fst w119)), (snd w119), 3, twiceLeafNode, twiceKP.
  split; [exact toy_ok|]. split; [exact ga_obtained|].
  split; [apply acceptedPublic_commit; rewrite w119_accepted; now destruct w119 as [[? ?] ?]|].
  split; [vm_compute; reflexivity|]. split; [vm_compute; reflexivity|]. split; [exact not_once|]. split; [left; vm_compute; reflexivity|exact not_once].
Qed.

(** The same Welcome with one more ratchet tree, which is not even one *)
Definition secrets119 : groupSecrets := mkGroupSecrets (zeros 32) None [].
Definition info119 : groupInfo := Eval vm_compute in gi52 t52.
Definition info119' : groupInfo := Eval vm_compute in
  getOr info119 (@groupInfoSign toy (kpp_signatureKey alice) []
    (mkGroupInfo (gi_groupContext info119) (gi_extensions info119 ++ [mkExtension 2 (str "no tree")]) (gi_confirmationTag info119) (gi_signer info119) [])).
Definition welcome119 : welcome := Eval vm_compute in getOr noWelcome (forgeWelcome info119 secrets119 (kpp_public dave)).
Definition welcome119' : welcome := Eval vm_compute in getOr noWelcome (forgeWelcome info119' secrets119 (kpp_public dave)).
Definition joined119 : group := Eval vm_compute in getOr noGroup (@groupFromWelcome toy welcome119 dave clock).

Lemma twice_example :
  same_package onceKP twiceKP /\ once (kp_extensions onceKP) /\ ~ once (kp_extensions twiceKP) /\
  @keyPackageVerifySignature toy onceKP = Ok true /\ @keyPackageVerifySignature toy twiceKP = Ok true /\
  @keyPackageVerify toy twiceKP (gr_context ga) = Ok tt /\
  same_info info119 info119' /\ ~ once (gi_extensions info119') /\
  @groupInfoVerifySignature toy info119' (ln_signatureKey (kp_leafNode (kpp_public alice))) = Ok true /\
  @groupFromWelcome toy welcome119 dave clock = Ok joined119 /\ @groupFromWelcome toy welcome119' dave clock = Ok joined119.
Proof.
  split; [constructor; vm_compute; reflexivity|]. split; [constructor; [intros []|constructor]|]. split; [exact not_once|].
  split; [vm_compute; reflexivity|]. split; [vm_compute; reflexivity|]. split; [vm_compute; reflexivity|].
  split; [constructor; vm_compute; reflexivity|]. split. { intros H. inversion H as [|? ? N _]; subst. apply N. left. vm_compute. reflexivity. }
  split; [vm_compute; reflexivity|]. split; vm_compute; reflexivity.
Qed.
