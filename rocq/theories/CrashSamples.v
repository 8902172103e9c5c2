(** Concrete messages and Welcomes that make nobody panic. *)
From Verif Require Export JoinCrashFacts RemovedSamples PathSamples.

(** The suites the code supports *)
Lemma supported_suites (C : crypto) : forall cs, In cs [1; 2; 3; 7] -> supported cs = true /\ exists d, cipherSuiteDescriptions cs = Some d /\
  forall pub, (sd_sig d = Ed25519 \/ cr_ecdsaPubValid C (sd_sig d) pub = true) -> usable_key (C := C) d pub.
Proof.
  assert (E : forall d pub, sd_sig d = Ed25519 \/ cr_ecdsaPubValid C (sd_sig d) pub = true -> usable_key (C := C) d pub).
  { intros d pub H m s. unfold sigVerify. destruct H as [->|H]; [exact I|]. destruct (sd_sig d); try exact I; rewrite H; cbn [negb]; destruct (cr_ecdsaSigParses C s); exact I. }
  intros cs [<-|[<-|[<-|[<-|[]]]]]; (split; [reflexivity|]); eexists; (split; [reflexivity|]); intros pub H; now apply E.
Qed.
Lemma ed25519_usable (C : crypto) pub : usable_key (C := C) (mkSuiteDesc SHA256 X25519 SHA256 AES128GCM Ed25519) pub.
Proof. intros m s. exact I. Qed.

Lemma carries_det (C : crypto) g raw a b : carries (C := C) g raw a -> carries g raw b -> a = b.
Proof. intros A B. destruct A, B; congruence. Qed.

(** *** Bob removes Carol: Alice follows. *)
Definition m51 : publicMessage := fst (fst w51).
Lemma raw51 : unmarshal getMlsMessage w51raw = Ok (MPublic m51).
Proof. vm_compute. reflexivity. Qed.
Lemma ga_shaped : shaped 2 (gr_value ga).
Proof. apply shapedb_ok; [unfold fits; lia|vm_compute; reflexivity]. Qed.
Lemma sender51 : sender_in_tree (C := toy) ga w51raw.
Proof.
  intros li [m li' E Es|m sds sd E _ _].
  - rewrite raw51 in E. apply Ok_inj in E. injection E as <-. vm_compute in Es. injection Es as <-. vm_compute. reflexivity.
  - rewrite raw51 in E. discriminate.
Qed.
Lemma fits51 : commit_fits (C := toy) ga w51raw.
Proof.
  intros ac c li ps Hca Eb Es Hc. apply (carries_det _ _ _ _ _ (carries_public (C := toy) ga w51raw m51 raw51)) in Hca. subst ac.
  assert (E : li = 1 /\ c = snd (fst w51)).
  { vm_compute in Es. injection Es as <-. split; [reflexivity|].
    assert (X : fc_body (pubm_content m51) = BCommit (snd (fst w51))) by (vm_compute; reflexivity). cbn [ac_content] in Eb. rewrite X in Eb. now injection Eb as <-. }
  destruct E as [-> ->]. apply (proj2 (resolveProposals_spec _ _ _ _)) in Hc.
  assert (Eps : resolveProposals (c_proposals (snd (fst w51))) 1 (gr_pending ga) = Ok [(PRemove 2, 1)]) by (vm_compute; reflexivity).
  rewrite Eps in Hc. apply Ok_inj in Hc. subst ps. split.
  - intros r s [E|[]]. injection E as <- <-. vm_compute. discriminate.
  - exists 4. split; [|vm_compute; discriminate]. exists (upto 4). split; [vm_compute; discriminate|].
    intros j Hj. apply upto_In. destruct (leaf_at (gr_value ga) j) as [l|] eqn:E; [|congruence].
    exact (leaf_at_range 2 (gr_value ga) j l (proj1 ga_shaped) E).
Qed.

Lemma usable51 : keys_usable (C := toy) (mkSuiteDesc SHA256 X25519 SHA256 AES128GCM Ed25519) ga w51raw.
Proof. split; [intros; apply ed25519_usable|]. intros; split; intros; apply ed25519_usable. Qed.

(** *** A group with ECDSA: Alice hears herself, *)
Definition alice2 : keyPairPackage := Eval vm_compute in getOr noKeys (person 2 "alice").
Definition bob2 : keyPairPackage := Eval vm_compute in getOr noKeys (person 2 "bob").
Definition g2 : group := Eval vm_compute in getOr noGroup (@createGroup toy (str "grp") alice2 (zeros 32)).
Lemma g2_obtained : @obtained toy g2.
Proof. apply (obtained_created (C := toy) (str "grp") alice2 (zeros 32)). vm_compute. reflexivity. Qed.
Definition inviteWith (kp : keyPackage) : bytes := match snd (@createWelcome toy g2 [kp] [] [] [str "x"] (str "abcd")) with Ok (_, m) => m | _ => [] end.
Definition raw2 : bytes := Eval vm_compute in inviteWith (kpp_public bob2).
(** and someone invites whose signature key is no point. *)
Definition bad2 : keyPackage := let k := kpp_public bob2 in let l := kp_leafNode k in
  mkKeyPackage (kp_version k) (kp_cipherSuite k) (kp_initKey k)
    (mkLeafNode (ln_encryptionKey l) [] (ln_credential l) (ln_capabilities l) (ln_source l) (ln_lifetime l) (ln_parentHash l) (ln_extensions l) (ln_signature l))
    (kp_extensions k) (kp_signature k).
Definition rawBad : bytes := Eval vm_compute in inviteWith bad2.

Section Solo.
Context (raw : bytes) (m : privateMessage) (sds : bytes) (sd : senderData) (secret : ratchetSecret) (pc : privateMessageContent) (c : commit) (kp : keyPackage).
Context (H1 : unmarshal getMlsMessage raw = Ok (MPrivate m)) (H2 : @deriveSecret toy 2 (gr_epochSecret g2) (str "sender data") = Ok sds)
  (H3 : @decryptSenderData toy 2 m sds = Ok sd) (H4 : @messageSecret toy g2 (sd_leafIndex sd) (privm_contentType m) (sd_generation sd) = Ok secret)
  (H5 : @decryptContent toy 2 m secret (sd_reuseGuard sd) = Ok pc) (H6 : pmc_body pc = BCommit c) (H7 : sd_leafIndex sd = 0)
  (H8 : resolveProposals (c_proposals c) 0 (gr_pending g2) = Ok [(PAdd kp, 0)]) (H9 : c_path c = None).
Lemma solo_sender li : names_sender (C := toy) g2 raw li -> li = 0.
Proof.
  intros [m' li' E Es|m' sds' sd' E E2 E3]; [congruence|]. assert (m' = m) by congruence. subst m'.
  change (@deriveSecret toy 2 (gr_epochSecret g2) (str "sender data") = Ok sds') in E2. rewrite H2 in E2. apply Ok_inj in E2. subst sds'.
  change (@decryptSenderData toy 2 m sds = Ok sd') in E3. rewrite H3 in E3. apply Ok_inj in E3. subst sd'. exact H7.
Qed.
Lemma solo_in : sender_in_tree (C := toy) g2 raw.
Proof. intros li H. apply solo_sender in H. subst li. vm_compute. reflexivity. Qed.
Lemma solo_commit ac c' li ps : carries (C := toy) g2 raw ac -> fc_body (ac_content ac) = BCommit c' -> fc_sender (ac_content ac) = SMember li -> commits g2 li c' ps ->
  ps = [(PAdd kp, 0)] /\ c_path c' = None.
Proof.
  intros Hca Eb Es Hc. apply (carries_det _ _ _ _ _ (carries_private (C := toy) g2 raw m sds sd secret pc H1 H2 H3 H4 H5)) in Hca. subst ac.
  cbn [ac_content fc_body fc_sender] in Eb, Es. rewrite H6 in Eb. injection Eb as <-. rewrite H7 in Es. injection Es as <-.
  apply (proj2 (resolveProposals_spec _ _ _ _)) in Hc. rewrite H8 in Hc. apply Ok_inj in Hc. auto.
Qed.
Lemma solo_fits : commit_fits (C := toy) g2 raw.
Proof.
  intros ac c' li ps Hca Eb Es Hc. destruct (solo_commit _ _ _ _ Hca Eb Es Hc) as [-> _]. split.
  - intros r s [E|[]]. discriminate.
  - exists 1. split; [|vm_compute; discriminate]. exists (upto 1). split; [vm_compute; discriminate|].
    intros j Hj. apply upto_In. destruct (leaf_at (gr_value g2) j) as [l|] eqn:E; [|congruence].
    assert (Sh : shaped 0 (gr_value g2)) by (apply shapedb_ok; [unfold fits; lia|vm_compute; reflexivity]).
    exact (leaf_at_range 0 (gr_value g2) j l (proj1 Sh) E).
Qed.
Lemma solo_usable d : usable_key (C := toy) d (ln_signatureKey (kp_leafNode kp)) ->
  (forall l, leaf_at (gr_value g2) 0 = Some l -> usable_key (C := toy) d (ln_signatureKey l)) -> keys_usable (C := toy) d g2 raw.
Proof.
  intros K1 K2. split.
  - intros li l Hn. apply solo_sender in Hn. subst li. apply K2.
  - intros ac c' li ps Hca Eb Es Hc. destruct (solo_commit _ _ _ _ Hca Eb Es Hc) as [-> Ep]. split; [|congruence].
    intros k s [E|[]]. injection E as <- <-. exact K1.
Qed.
End Solo.
Definition openSolo (raw : bytes) : res (privateMessage * bytes * senderData * ratchetSecret * privateMessageContent) :=
  let! mm := unmarshal getMlsMessage raw in
  match mm with
  | MPrivate m =>
    let! sds := @deriveSecret toy 2 (gr_epochSecret g2) (str "sender data") in
    let! sd := @decryptSenderData toy 2 m sds in
    let! secret := @messageSecret toy g2 (sd_leafIndex sd) (privm_contentType m) (sd_generation sd) in
    let! pc := @decryptContent toy 2 m secret (sd_reuseGuard sd) in
    Ok (m, sds, sd, secret, pc)
  | _ => Err "not private"
  end.
Lemma openSolo_inv raw m sds sd secret pc : openSolo raw = Ok (m, sds, sd, secret, pc) ->
  unmarshal getMlsMessage raw = Ok (MPrivate m) /\ @deriveSecret toy 2 (gr_epochSecret g2) (str "sender data") = Ok sds /\
  @decryptSenderData toy 2 m sds = Ok sd /\ @messageSecret toy g2 (sd_leafIndex sd) (privm_contentType m) (sd_generation sd) = Ok secret /\
  @decryptContent toy 2 m secret (sd_reuseGuard sd) = Ok pc.
Proof.
  unfold openSolo. intros H. apply rbind_ok in H as (mm & E1 & H). destruct mm; try discriminate. apply rbind_ok in H as (sds' & E2 & H). apply rbind_ok in H as (sd' & E3 & H).
  apply rbind_ok in H as (s' & E4 & H). apply rbind_ok in H as (pc' & E5 & H). apply Ok_inj in H. inversion H; subst. auto.
Qed.
Lemma solo raw o c kp : openSolo raw = Ok o -> pmc_body (snd o) = BCommit c -> sd_leafIndex (snd (fst (fst o))) = 0 ->
  resolveProposals (c_proposals c) 0 (gr_pending g2) = Ok [(PAdd kp, 0)] -> c_path c = None ->
  sender_in_tree (C := toy) g2 raw /\ commit_fits (C := toy) g2 raw /\
  forall d, usable_key (C := toy) d (ln_signatureKey (kp_leafNode kp)) ->
    (forall l, leaf_at (gr_value g2) 0 = Some l -> usable_key (C := toy) d (ln_signatureKey l)) -> keys_usable (C := toy) d g2 raw.
Proof.
  destruct o as [[[[m sds] sd] secret] pc]. cbn [fst snd]. intros Eo H6 H7 H8 H9. destruct (openSolo_inv _ _ _ _ _ _ Eo) as (H1 & H2 & H3 & H4 & H5).
  split; [exact (solo_in raw m sds sd H1 H2 H3 H7)|]. split; [exact (solo_fits raw m sds sd secret pc c kp H1 H2 H3 H4 H5 H6 H7 H8 H9)|].
  intros d. exact (solo_usable raw m sds sd secret pc c kp H1 H2 H3 H4 H5 H6 H7 H8 H9 d).
Qed.
Definition noSolo := (mkPrivateMessage [] 0 0 [] [] [], @nil byte, mkSenderData 0 0 [], mkRatchetSecret [] 0, mkPrivateMessageContent (BApplication []) (mkAuthData [] [])).
Definition open2 := Eval vm_compute in getOr noSolo (openSolo raw2).
Definition openBad := Eval vm_compute in getOr noSolo (openSolo rawBad).
Definition d2 : suiteDesc := mkSuiteDesc SHA256 KP256 SHA256 AES128GCM EcdsaP256.
Lemma usable_65 pub : lenN pub = 65 -> usable_key (C := toy) d2 pub.
Proof.
  intros H m s. unfold sigVerify, d2. cbn [sd_sig]. destruct (negb (cr_ecdsaSigParses toy s)); [exact I|].
  change (cr_ecdsaPubValid toy EcdsaP256 pub) with (lenN pub =? 65). rewrite H. exact I.
Qed.
Lemma ecdsa_example : keys_usable (C := toy) d2 g2 raw2 /\ sender_in_tree (C := toy) g2 raw2 /\ commit_fits (C := toy) g2 raw2.
Proof.
  assert (Eo : openSolo raw2 = Ok open2) by (vm_compute; reflexivity).
  assert (H6 : pmc_body (snd open2) = BCommit (mkCommit [PorProposal (PAdd (kpp_public bob2))] None)) by (vm_compute; reflexivity).
  assert (H7 : sd_leafIndex (snd (fst (fst open2))) = 0) by (vm_compute; reflexivity).
  assert (H8 : resolveProposals (c_proposals (mkCommit [PorProposal (PAdd (kpp_public bob2))] None)) 0 (gr_pending g2) = Ok [(PAdd (kpp_public bob2), 0)]) by (vm_compute; reflexivity).
  destruct (solo raw2 open2 _ (kpp_public bob2) Eo H6 H7 H8 eq_refl) as (A & B & K). split; [|split; [exact A|exact B]]. apply K.
  - apply usable_65. vm_compute. reflexivity.
  - intros l El. apply usable_65. assert (X : option_map (fun l => lenN (ln_signatureKey l)) (leaf_at (gr_value g2) 0) = Some 65) by (vm_compute; reflexivity). rewrite El in X. now injection X.
Qed.
Lemma unusable_panics : sender_in_tree (C := toy) g2 rawBad /\ commit_fits (C := toy) g2 rawBad /\
  @unmarshalAndProcessMessage toy g2 rawBad clock = (g2, Panic "nil pointer dereference").
Proof.
  assert (Eo : openSolo rawBad = Ok openBad) by (vm_compute; reflexivity).
  assert (H6 : pmc_body (snd openBad) = BCommit (mkCommit [PorProposal (PAdd bad2)] None)) by (vm_compute; reflexivity).
  assert (H7 : sd_leafIndex (snd (fst (fst openBad))) = 0) by (vm_compute; reflexivity).
  assert (H8 : resolveProposals (c_proposals (mkCommit [PorProposal (PAdd bad2)] None)) 0 (gr_pending g2) = Ok [(PAdd bad2, 0)]) by (vm_compute; reflexivity).
  destruct (solo rawBad openBad _ bad2 Eo H6 H7 H8 eq_refl) as (A & B & _). split; [exact A|]. split; [exact B|]. vm_compute. reflexivity.
Qed.

Lemma unusable_refuted :
  exists (C : crypto) g raw now p, crypto_ok C /\ supported (gc_cipherSuite (gr_context g)) = true /\ obtained g /\
  sender_in_tree g raw /\ commit_fits g raw /\ unmarshalAndProcessMessage g raw now = (g, Panic p).
Proof.
  destruct unusable_panics as (A & B & D). exists toy, g2, rawBad, clock, "nil pointer dereference"%string.
  split; [exact toy_ok|]. split; [reflexivity|]. split; [exact g2_obtained|]. split; [exact A|]. split; [exact B|exact D].
Qed.

(** *** Dave joins with a path secret. *)
Definition wfit : welcome := w52 t52c' (Some seed52).
Definition unmergedb (k : nat) (t : ratchetTree) : bool :=
  forallb (fun p => match at_path k t p with Some (NParent pn) => forallb (fun u => designated u <? leaf_count k) (pn_unmergedLeaves pn) | _ => true end) (pathsUpTo k).
Lemma fits_wfit gs gi t : @opens_to toy wfit dave gs gi t -> @welcome_fits toy dave gs gi t.
Proof.
  intros (ref & psk & raw & E1 & E2 & _ & E3 & E4 & E5 & E6).
  assert (X1 : @keyPackageRef toy (kpp_public dave) = Ok (getOr [] (@keyPackageRef toy (kpp_public dave)))) by (vm_compute; reflexivity).
  rewrite X1 in E1. apply Ok_inj in E1. subst ref.
  assert (X2 : @decryptGroupSecrets toy wfit (getOr [] (@keyPackageRef toy (kpp_public dave))) (kpp_initKey dave) = Ok (mkGroupSecrets (zeros 32) (Some seed52) []))
    by (vm_compute; reflexivity).
  rewrite X2 in E2. apply Ok_inj in E2. subst gs.
  assert (X3 : @extractPSKSecret toy (w_cipherSuite wfit) [] [] = Ok (getOr [] (@extractPSKSecret toy 1 [] []))) by (vm_compute; reflexivity).
  rewrite X3 in E3. apply Ok_inj in E3. subst psk.
  assert (X4 : @decryptGroupInfo toy wfit (zeros 32) (getOr [] (@extractPSKSecret toy 1 [] [])) = Ok (gi52 t52c')) by (vm_compute; reflexivity).
  cbn [gs_joinerSecret] in E4. rewrite X4 in E4. apply Ok_inj in E4. subst gi.
  assert (X5 : findExtensionData (gi_extensions (gi52 t52c')) 2 = Some (getOr [] (putRatchetTree t52c'))) by (vm_compute; reflexivity).
  assert (raw = getOr [] (putRatchetTree t52c')) by congruence. subst raw.
  assert (X6 : unmarshal getRatchetTree (getOr [] (putRatchetTree t52c')) = Ok t52c') by (vm_compute; reflexivity).
  rewrite X6 in E6. apply Ok_inj in E6. subst t.
  split; [exists (mkSuiteDesc SHA256 X25519 SHA256 AES128GCM Ed25519); splits; [reflexivity|reflexivity|intros li l _; apply ed25519_usable]|].
  exists 2%nat. splits.
  - apply shapedb_ok; [unfold fits; lia|vm_compute; reflexivity].
  - vm_compute. reflexivity.
  - intros p pn u Hp A Hu. assert (B : unmergedb 2 t52c' = true) by (vm_compute; reflexivity). unfold unmergedb in B. rewrite forallb_forall in B.
    specialize (B p (in_pathsUpTo 2 p Hp)). rewrite A in B. rewrite forallb_forall in B. now apply N.ltb_lt, B.
  - intros _ me l p El Ek P1 P2.
    assert (B : forallb (fun p => if prefixb p (leafPath 2 0) && prefixb p (leafPath 2 1) then match at_path 2 t52c' p with Some _ => true | None => false end else true)
      (pathsUpTo 2) = true) by (vm_compute; reflexivity).
    assert (Hme : me < 4). { exact (leaf_at_range 2 t52c' me l (proj1 (shapedb_ok 2 t52c' ltac:(unfold fits; lia) eq_refl)) El). }
    assert (Em : me = 1).
    { assert (Ch : forallb (fun li => match leaf_at t52c' li with Some n => implb (bytes_eqb (ln_encryptionKey n) (ln_encryptionKey (kp_leafNode (kpp_public dave)))) (li =? 1) | None => true end) (upto 4) = true) by (vm_compute; reflexivity).
      rewrite forallb_forall in Ch. specialize (Ch me (proj2 (upto_In 4 me) Hme)). rewrite El, Ek, bytes_eqb_refl in Ch. now apply N.eqb_eq in Ch. }
    subst me. rewrite forallb_forall in B. change (leafPath 2 (designated (gi_signer (gi52 t52c')))) with (leafPath 2 0) in P2.
    assert (Hp : in_tree 2 p) by (destruct P1 as [s Eq]; unfold in_tree; pose proof (leafPath_in 2 1) as Hl; unfold in_tree in Hl; rewrite Eq, app_length in Hl; lia).
    specialize (B p (in_pathsUpTo 2 p Hp)). cbv beta in B. rewrite (proj2 (prefixb_ok p _) P1), (proj2 (prefixb_ok p _) P2) in B. cbn [andb] in B.
    intros X. rewrite X in B. discriminate.
Qed.
