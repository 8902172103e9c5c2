(** Dave, whose leaf node is not signed, founds a group and invites Bob. *)
From Verif Require Export FoundFacts KeySamples TypesSamples.

Definition daveBogus : keyPairPackage := mkKeyPairPackage unsignedDave (kpp_initKey dave) (kpp_encryptionKey dave) (kpp_signatureKey dave).
Definition bogusGroup : group := Eval vm_compute in getOr noGroup (@createGroup toy (str "grp") daveBogus (zeros 32)).
Definition bogusWelcome : group * (welcome * bytes) := Eval vm_compute in
  let (g, r) := @createWelcome toy bogusGroup [kpp_public bob] [] [] [str "z"] (str "efgh") in (g, getOr (noWelcome, []) r).

Lemma bogus_unchecked : ~ @leaf_checked toy (gr_context bogusGroup) clock 0 (kp_leafNode unsignedDave).
Proof.
  intros [[_ (d & Hd & V)] _].
  assert (E : suite (gc_cipherSuite (gr_context bogusGroup)) = suite 1) by (vm_compute; reflexivity). rewrite E in Hd. clear E.
  assert (V' : cr_verify toy (sd_sig d) (ln_signatureKey (kp_leafNode unsignedDave)) (enc_labelled (str "LeafNodeTBS") (enc_leafNodeTBS (kp_leafNode unsignedDave) (gc_groupID (gr_context bogusGroup)) 0)) (ln_signature (kp_leafNode unsignedDave)) = true) by apply V.
  cbn [cr_verify toy] in V'. vm_compute in V'. discriminate.
Qed.

Lemma found_example :
  wf_keyPackage (kpp_public daveBogus) /\ known_suite (kp_cipherSuite (kpp_public daveBogus)) /\
  lenN (enc_leafNode (kp_leafNode (kpp_public daveBogus))) < 2 ^ 26 /\
  @createGroup toy (str "grp") daveBogus (zeros 32) = Ok bogusGroup /\
  ~ @leaf_checked toy (gr_context bogusGroup) clock 0 (kp_leafNode (kpp_public daveBogus)) /\
  @createWelcome toy bogusGroup [kpp_public bob] [] [] [str "z"] (str "efgh") = (fst bogusWelcome, Ok (snd bogusWelcome)) /\
  (exists e, @groupFromWelcome toy (fst (snd bogusWelcome)) bob clock = Err e) /\
  (exists gid rnd g1 w raw, @createGroup toy gid alice rnd = Ok g0 /\
     @createWelcome toy g0 [kpp_public bob; kpp_public carol] [] [] [str "x"; str "y"] (str "abcd") = (g1, Ok (w, raw)) /\ @groupFromWelcome toy w bob clock = Ok gb).
Proof.
  split; [apply kp_by_coding; vm_compute; reflexivity|]. split; [eexists; vm_compute; reflexivity|].
  split; [vm_compute; reflexivity|]. split; [vm_compute; reflexivity|]. split; [exact bogus_unchecked|]. split; [vm_compute; reflexivity|].
  split; [eexists; vm_compute; reflexivity|].
  exists (str "grp"), (zeros 32), (fst firstWelcome), (fst (snd firstWelcome)), (snd (snd firstWelcome)). split; [vm_compute; reflexivity|]. split; vm_compute; reflexivity.
Qed.
