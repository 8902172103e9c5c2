(** Dave's key package with GREASE values. *)
From Verif Require Export GreaseFacts Scenario.

Definition greasyLeaf : leafNode := Eval vm_compute in
  let l := kp_leafNode (kpp_public dave) in
  getOr l (@leafNodeSign toy 1 [] 0 (kpp_signatureKey dave) []
    (mkLeafNode (ln_encryptionKey l) (ln_signatureKey l) (ln_credential l)
      (mkCapabilities [0x0A0A; 1] [0x1A1A; 1; 0xEAEA] [2; 0xDADA] [1; 0x2A2A; 2; 3] [0x3A3A; 1; 0x3A3A])
      (ln_source l) (ln_lifetime l) (ln_parentHash l) [mkExtension 0xDADA (str "ignore me")] [])).
Definition greasy : keyPackage := Eval vm_compute in
  let k := kpp_public dave in
  getOr k (@keyPackageSign toy (kpp_signatureKey dave) []
    (mkKeyPackage (kp_version k) (kp_cipherSuite k) (kp_initKey k) greasyLeaf [mkExtension 0x4A4A []] [])).
Definition greasyDave : keyPairPackage := mkKeyPairPackage greasy (kpp_initKey dave) (kpp_encryptionKey dave) (kpp_signatureKey dave).
Definition greasyRaw : bytes := Eval vm_compute in getOr [] (keyPackageBytes greasy).

Definition invited := Eval vm_compute in @createWelcome toy ga [greasy] [] [] [str "x"] (str "abcd").
Definition invitedWelcome : welcome := Eval vm_compute in match snd invited with Ok (w, _) => w | _ => mkWelcome 0 [] [] end.
Definition invitedCommit : bytes := Eval vm_compute in match snd invited with Ok (_, m) => m | _ => [] end.
Definition gbGreasy : group := Eval vm_compute in fst (@unmarshalAndProcessMessage toy gb invitedCommit clock).
Definition gdGreasy : group := Eval vm_compute in getOr noGroup (@groupFromWelcome toy invitedWelcome greasyDave clock).

Definition greasyContext (t : ratchetTree) : groupContext :=
  mkGroupContext 1 1 (str "g") 0 (getOr [] (@computeRootTreeHash toy 1 t)) [] [].

Lemma greasy_leaf : leaf_greased (kp_leafNode (kpp_public dave)) greasyLeaf.
Proof. constructor; try (vm_compute; reflexivity). constructor; vm_compute; reflexivity. Qed.
Lemma dave_wf : wf_keyPackage (kpp_public dave).
Proof.
  split; [vm_compute; reflexivity|]. split; [vm_compute; reflexivity|]. split; [|vm_compute; constructor].
  split; [left; split; vm_compute; reflexivity|]. split.
  { assert (F : forall l, forallb (fun x => x <? 2 ^ 16) l = true -> Forall u16 l).
    { intros l H. apply Forall_forall. intros x Hx. rewrite forallb_forall in H. apply N.ltb_lt. exact (H x Hx). }
    split; [|split; [|split; [|split]]]; apply F; vm_compute; reflexivity. }
  split; [vm_compute; constructor|]. left. split; [vm_compute; reflexivity|]. split; [|vm_compute; reflexivity].
  exists (newLifetime (unixTime 2000000000) (timeAdd (unixTime 2000000000) (30 * 24 * 3600 * 1000000000))). split; [vm_compute; reflexivity|]. split; vm_compute; reflexivity.
Qed.

Lemma grease_example :
  wf_keyPackage (kpp_public dave) /\ package_greased (kpp_public dave) greasy /\ greasy <> kpp_public dave /\
  grease_listed (kp_leafNode (kpp_public dave)) /\ grease_listed greasyLeaf /\
  keyPackageBytes greasy = Ok greasyRaw /\ unmarshalKeyPackage greasyRaw = Ok greasy /\
  @keyPackageVerifySignature toy greasy = Ok true /\ @keyPackageVerify toy greasy (gr_context ga) = Ok tt /\
  Forall2 node_greased [Some (NLeaf (kp_leafNode (kpp_public dave)))] [Some (NLeaf greasyLeaf)] /\
  supportedCreds [Some (NLeaf (kp_leafNode (kpp_public dave)))] = Ok [1] /\ supportedCreds [Some (NLeaf greasyLeaf)] = Ok [1] /\
  @unmarshalAndProcessMessage toy gb invitedCommit clock = (gbGreasy, Ok None) /\
  @groupFromWelcome toy invitedWelcome greasyDave clock = Ok gdGreasy /\ gr_epochSecret gdGreasy = gr_epochSecret gbGreasy /\
  let t := [Some (NLeaf (kp_leafNode (kpp_public dave)))] in let t' := [Some (NLeaf greasyLeaf)] in
  @verifyIntegrity toy t (greasyContext t) clock = Ok tt /\ @verifyIntegrity toy t' (greasyContext t') clock = Ok tt.
Proof.
  split; [exact dave_wf|]. split. { constructor; try (vm_compute; reflexivity). exact greasy_leaf. }
  split. { intros F. apply (f_equal (fun k => length (kp_extensions k))) in F. vm_compute in F. discriminate F. }
  split. { intros e H. vm_compute in H. destruct H. }
  split. { intros e [<-|[]] _. right. left. reflexivity. }
  split; [vm_compute; reflexivity|]. split; [vm_compute; reflexivity|]. split; [vm_compute; reflexivity|]. split; [vm_compute; reflexivity|].
  split. { constructor; [exact greasy_leaf|constructor]. }
  split; [vm_compute; reflexivity|]. split; [vm_compute; reflexivity|]. split; [vm_compute; reflexivity|]. split; [vm_compute; reflexivity|]. split; [vm_compute; reflexivity|]. cbv zeta. split; vm_compute; reflexivity.
Qed.
