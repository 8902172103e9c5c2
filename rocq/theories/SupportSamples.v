(** Members that do not support what others use. *)
From Verif Require Export SupportFacts KeySamples CommitTreeSamples.

(** *** Carol commits with a leaf node that lists no credential type. *)
Definition withCaps (l : leafNode) (c : capabilities) : leafNode :=
  mkLeafNode (ln_encryptionKey l) (ln_signatureKey l) (ln_credential l) c (ln_source l) (ln_lifetime l) (ln_parentHash l) (ln_extensions l) (ln_signature l).
Definition noCaps : capabilities := mkCapabilities [1] [1] [] [] [].
Definition silentCarol : group := Eval vm_compute in
  mkGroup (map (fun n => match n with NLeaf l => if bytes_eqb (ln_encryptionKey l) (ln_encryptionKey (kp_leafNode (kpp_public carol))) then NLeaf (withCaps l noCaps) else n | _ => n end) (gr_heap gc))
    (gr_tree gc) (gr_context gc) (gr_interimTranscriptHash gc) (gr_pskSecret gc) (gr_epochSecret gc) (gr_initSecret gc) (gr_myLeafIndex gc) (gr_privTree gc) (gr_signaturePriv gc) (gr_pending gc).
Definition silentRaw : bytes := Eval vm_compute in
  getOr [] (@sendPathCommit toy silentCarol 2 [] [] (pad 32 (str "new leaf")) [] (pad 32 (str "seed")) (str "r")).
Definition silent := Eval vm_compute in getSome (noMessage, noCommit, noGroup) (acceptedPublic ga silentRaw).
Lemma silent_accepted : acceptedPublic ga silentRaw = Some silent.
Proof. vm_compute. reflexivity. Qed.

Definition supportedb (t : ratchetTree) : bool :=
  forallb (fun p => forallb (fun q => memN (cred_type (ln_credential (snd p))) (caps_credentials (ln_capabilities (snd q)))) (allLeaves t)) (allLeaves t).
Lemma supported_by k t : full k t -> supportedb t = true -> credentials_supported t.
Proof.
  intros F H i l Hl j m Hm. apply (allLeaves_In k t _ _ F) in Hl, Hm. unfold supportedb in H. rewrite forallb_forall in H. specialize (H _ Hl). cbn [snd] in H.
  rewrite forallb_forall in H. specialize (H _ Hm). cbn [snd] in H. now apply memN_In in H.
Qed.
Definition extensionsb (t : ratchetTree) : bool :=
  forallb (fun p => forallb (fun e => memN (ext_type e) (caps_extensions (ln_capabilities (snd p)))) (ln_extensions (snd p))) (allLeaves t).
Lemma extensions_by k t : full k t -> extensionsb t = true -> extensions_listed t.
Proof.
  intros F H i l Hl e He. apply (allLeaves_In k t _ _ F) in Hl. unfold extensionsb in H. rewrite forallb_forall in H. specialize (H _ Hl). cbn [snd] in H.
  rewrite forallb_forall in H. specialize (H _ He). now apply memN_In in H.
Qed.
Lemma ga_full : full 2 (gr_value ga).
Proof. split; vm_compute; [lia|reflexivity]. Qed.
(** *** Bob adds Dave with an extension that Dave does not list. *)
Definition oddDave : keyPackage := Eval vm_compute in
  let k := kpp_public dave in let l := kp_leafNode k in
  getOr stranger (let! l' := @leafNodeSign toy 1 [] 0 (kpp_signatureKey dave) []
     (mkLeafNode (ln_encryptionKey l) (ln_signatureKey l) (ln_credential l) (ln_capabilities l) (ln_source l) (ln_lifetime l) (ln_parentHash l) [mkExtension 61440 (str "data")] []) in
   @keyPackageSign toy (kpp_signatureKey dave) [] (mkKeyPackage (kp_version k) (kp_cipherSuite k) (kp_initKey k) l' [] [])).
Definition oddRaw : bytes := Eval vm_compute in
  getOr [] (@sendPublic toy gb 1 (BCommit (mkCommit [PorProposal (PAdd oddDave)] None)) [] (str "tag")).
Definition odd := Eval vm_compute in getSome (noMessage, noCommit, noGroup) (acceptedPublic ga oddRaw).
Lemma odd_accepted : acceptedPublic ga oddRaw = Some odd.
Proof. vm_compute. reflexivity. Qed.

(** *** Alice invites Dave to a group that requires an extension. *)
Definition demand : requiredCapabilities := mkRequired [61440] [] [].
Definition demandInfo : groupInfo := Eval vm_compute in getOr (mkGroupInfo c52 [] [] 0 [])
  (let! th := @computeRootTreeHash toy 1 pairNodes in
   let! raw := writeVector putOptionalNode pairNodes in
   let ctx := mkGroupContext 1 1 (str "grp") 5 th (str "confirmed") [mkExtension 3 (enc_required demand)] in
   let! psk := @extractPSKSecret toy 1 [] [] in
   let! epoch := @extractEpochSecret toy ctx (zeros 32) psk in
   let! tag := @signConfirmationTag toy ctx epoch in
   @groupInfoSign toy (kpp_signatureKey alice) [] (mkGroupInfo ctx [mkExtension 2 raw] tag 0 [])).
Definition demandWelcome : welcome := Eval vm_compute in welcomeWith demandInfo.
Definition demandJoined : group := Eval vm_compute in getOr noGroup (@groupFromWelcome toy demandWelcome dave clock).
Lemma demandJoined_eq : @groupFromWelcome toy demandWelcome dave clock = Ok demandJoined.
Proof. vm_compute. reflexivity. Qed.

Lemma silent_commit : exists (C : crypto) g raw now ac c g',
  crypto_ok C /\ obtained g /\ accepts_commit g raw now ac c g' /\ c_proposals c = [] /\ lists_once (gr_value g) /\
  credentials_supported (gr_value g) /\ ~ credentials_supported (gr_value g').
Proof.
  exists toy, ga, silentRaw, clock, (publicContent (fst (fst silent))), (snd (fst silent)), (snd silent).
  split; [exact toy_ok|]. split; [exact ga_obtained|]. split; [apply acceptedPublic_commit; rewrite silent_accepted; now destruct silent as [[? ?] ?]|].
  split; [vm_compute; reflexivity|]. split; [apply lists_once_by; vm_compute; reflexivity|]. split; [apply (supported_by 2 _ ga_full); vm_compute; reflexivity|].
  intros H. assert (E : exists a b, leaf_at (gr_value (snd silent)) 0 = Some a /\ leaf_at (gr_value (snd silent)) 2 = Some b /\ caps_credentials (ln_capabilities b) = []).
  { eexists _, _. split; [vm_compute; reflexivity|]. split; vm_compute; reflexivity. }
  destruct E as (a & b & Ea & Eb & En). specialize (H _ _ Ea _ _ Eb). rewrite En in H. exact H.
Qed.
Lemma odd_commit : exists (C : crypto) g raw now ac c g',
  crypto_ok C /\ obtained g /\ accepts_commit g raw now ac c g' /\ extensions_listed (gr_value g) /\ ~ extensions_listed (gr_value g').
Proof.
  exists toy, ga, oddRaw, clock, (publicContent (fst (fst odd))), (snd (fst odd)), (snd odd).
  split; [exact toy_ok|]. split; [exact ga_obtained|]. split; [apply acceptedPublic_commit; rewrite odd_accepted; now destruct odd as [[? ?] ?]|].
  split; [apply (extensions_by 2 _ ga_full); vm_compute; reflexivity|].
  intros H. assert (E : exists a e, leaf_at (gr_value (snd odd)) 3 = Some a /\ In e (ln_extensions a) /\ memN (ext_type e) (caps_extensions (ln_capabilities a)) = false).
  { eexists _, _. split; [vm_compute; reflexivity|]. split; [left; reflexivity|vm_compute; reflexivity]. }
  destruct E as (a & e & Ea & Ee & En). specialize (H _ _ Ea _ Ee). apply memN_In in H. congruence.
Qed.
Lemma demanding_group : exists (C : crypto) w kpp now g r,
  crypto_ok C /\ later_than_1970 now /\ groupFromWelcome w kpp now = Ok g /\ requires (gr_context g) r /\
  forall li l, leaf_at (gr_value g) li = Some l -> ~ has_capabilities r l.
Proof.
  exists toy, demandWelcome, dave, clock, demandJoined, demand. split; [exact toy_ok|]. split; [exact clock_later|]. split; [exact demandJoined_eq|].
  split; [left; reflexivity|]. assert (F : full 1 (gr_value demandJoined)) by (split; vm_compute; [lia|reflexivity]).
  intros li l Hl [H _]. apply (allLeaves_In 1 _ _ _ F) in Hl. specialize (H 61440 (or_introl eq_refl)). apply memN_In in H.
  assert (A : forallb (fun p => negb (memN 61440 (caps_extensions (ln_capabilities (snd p))))) (allLeaves (gr_value demandJoined)) = true) by (vm_compute; reflexivity).
  rewrite forallb_forall in A. specialize (A _ Hl). cbn [snd] in A. now rewrite H in A.
Qed.

(** *** Carol commits as they should. *)
Definition plainRaw : bytes := Eval vm_compute in
  getOr [] (@sendPathCommit toy gc 2 [] [] (pad 32 (str "new leaf")) [] (pad 32 (str "seed")) (str "r")).
Definition plain := Eval vm_compute in getSome (noMessage, noCommit, noGroup) (acceptedPublic ga plainRaw).
Lemma plain_accepted : acceptedPublic ga plainRaw = Some plain.
Proof. vm_compute. reflexivity. Qed.
Lemma support_example : exists raw ac c g' up,
  @obtained toy ga /\ @accepts_commit toy ga raw clock ac c g' /\ fc_sender (ac_content ac) = SMember 2 /\ commits ga 2 c [] /\ c_path c = Some up /\
  lists_once (gr_value ga) /\ credentials_supported (gr_value ga) /\ extensions_listed (gr_value ga) /\
  (forall j l, leaf_at (gr_value g') j = Some l -> In (cred_type (ln_credential l)) (caps_credentials (ln_capabilities (up_leafNode up)))) /\
  credentials_supported (gr_value g') /\ extensions_listed (gr_value g').
Proof.
  assert (F : full 2 (gr_value (snd plain))) by (split; vm_compute; [lia|reflexivity]).
  assert (Cs : credentials_supported (gr_value (snd plain))) by (apply (supported_by 2 _ F); vm_compute; reflexivity).
  assert (P : exists up, c_path (snd (fst plain)) = Some up /\ leaf_at (gr_value (snd plain)) 2 = Some (up_leafNode up)).
  { eexists. split; vm_compute; reflexivity. }
  destruct P as (up & P1 & P2).
  exists plainRaw, (publicContent (fst (fst plain))), (snd (fst plain)), (snd plain), up.
  split; [exact ga_obtained|]. split; [apply acceptedPublic_commit; rewrite plain_accepted; now destruct plain as [[? ?] ?]|].
  split; [vm_compute; reflexivity|]. split; [constructor|]. split; [exact P1|]. split; [apply lists_once_by; vm_compute; reflexivity|].
  split; [apply (supported_by 2 _ ga_full); vm_compute; reflexivity|]. split; [apply (extensions_by 2 _ ga_full); vm_compute; reflexivity|].
  split; [intros j l Hl; exact (Cs _ _ Hl _ _ P2)|]. split; [exact Cs|]. apply (extensions_by 2 _ F). vm_compute. reflexivity.
Qed.
