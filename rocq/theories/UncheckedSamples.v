(** Bob invites Dave with a key package that is not signed. *)
From Verif Require Export CreateSamples EveryFacts UncheckedFacts.

Definition daveUnsigned : keyPackage := Eval vm_compute in unsigned (kpp_public dave).
Lemma daveUnsigned_is : daveUnsigned = unsigned (kpp_public dave).
Proof. vm_compute. reflexivity. Qed.

Lemma daveUnsigned_invited : @can_invite toy gb [daveUnsigned].
Proof.
  rewrite daveUnsigned_is. destruct dave_invited as [_ Hp Hn Hr _ Ht]. constructor.
  - discriminate.
  - intros k [<-|[]]. destruct (Hp (kpp_public dave) (or_introl eq_refl)) as ((W1 & W2 & W3 & W4) & Hc & He). unfold wf_keyPackage, unsigned. cbn [kp_version kp_cipherSuite kp_initKey kp_leafNode kp_extensions]. auto.
  - exact Hn.
  - exact Hr.
  - vm_compute. reflexivity.
  - intros t AP. assert (AP' : after_proposals (gr_value gb) [(PAdd (unsigned (kpp_public dave)), gr_myLeafIndex gb)] withDave).
    { apply vapply_one_by_one; [exact (sane_shape _ (obtained_sane gb gb_obtained))|]. vm_compute. reflexivity. }
    change (map (fun k => (PAdd k, gr_myLeafIndex gb)) [unsigned (kpp_public dave)]) with [(PAdd (unsigned (kpp_public dave)), gr_myLeafIndex gb)] in AP.
    rewrite (after_proposals_fun _ _ _ _ AP AP'). vm_compute. reflexivity.
Qed.

Lemma daveUnsigned_not_let_in : ~ @let_in_together toy (gr_context gb) [daveUnsigned].
Proof.
  intros [F _]. apply Forall_inv in F. destruct F as (_ & _ & _ & _ & _ & d & Hd & V).
  assert (E : suite (kp_cipherSuite daveUnsigned) = suite 1) by (vm_compute; reflexivity). rewrite E in Hd. clear E.
  assert (V' : cr_verify toy (sd_sig d) (ln_signatureKey (kp_leafNode daveUnsigned)) (enc_labelled (str "KeyPackageTBS") (enc_keyPackageTBS daveUnsigned)) (kp_signature daveUnsigned) = true) by apply V.
  cbn [cr_verify toy] in V'. vm_compute in V'. discriminate.
Qed.

(** What CreateWelcome returns, and the group that Dave joins with it *)
Definition unsignedWelcome : group * (welcome * bytes) := Eval vm_compute in
  let (g, r) := @createWelcome toy gb [daveUnsigned] [] [] [str "z"] (str "efgh") in (g, getOr (noWelcome, []) r).
Definition daveWithout : keyPairPackage := mkKeyPairPackage daveUnsigned (kpp_initKey dave) (kpp_encryptionKey dave) (kpp_signatureKey dave).
