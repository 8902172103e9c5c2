(** A concrete instance of ideal encryption, for the examples of C91 to C93:
    what begins with 0xff is secret. *)
From Verif Require Export SecrecyFacts JoinSamples.
From Verif Require Import GroupFacts.

Definition marked (b : bytes) : bool := match b with [] => true | x :: _ => b2n x =? 255 end.
Definition secretly (b : bytes) : Prop := marked b = true.
Definition mark (n : N) : bytes := repeat xff (N.to_nat n).

Definition veil : crypto := {|
  cr_hash := cr_hash toy;
  cr_hmac := cr_hmac toy;
  cr_extract h a b := if marked a || marked b then mark (hashSize h) else cr_extract toy h a b;
  cr_expand h k i n := if marked k then mark n else cr_expand toy h k i n;
  cr_aeadSeal a k n aad pt := if marked k then zeros (lenN pt + 16) else cr_aeadSeal toy a k n aad pt;
  cr_aeadOpen := cr_aeadOpen toy;
  cr_deriveKeyPair := cr_deriveKeyPair toy;
  cr_generateKeyPair := cr_generateKeyPair toy;
  cr_hpkeSeal kem kdf aead pub info rnd pt :=
    if marked pub then Some (rnd, zeros (lenN pt + 16)) else cr_hpkeSeal toy kem kdf aead pub info rnd pt;
  cr_hpkeOpen := cr_hpkeOpen toy;
  cr_sign := cr_sign toy;
  cr_verify := cr_verify toy;
  cr_ecdsaPubValid := cr_ecdsaPubValid toy;
  cr_ecdsaSigParses := cr_ecdsaSigParses toy;
  cr_sigKeyPair := cr_sigKeyPair toy |}.

Lemma mark_len n : lenN (mark n) = n.
Proof. unfold mark, lenN. rewrite repeat_length. lia. Qed.
Lemma marked_mark n : marked (mark n) = true.
Proof. unfold mark. now destruct (N.to_nat n). Qed.
Lemma zeros_len n : lenN (zeros n) = n.
Proof. unfold zeros, lenN. rewrite repeat_length. lia. Qed.

Lemma veil_ideal : ideal veil secretly.
Proof.
  unfold secretly. constructor; cbn [veil cr_expand cr_extract cr_aeadSeal].
  - intros h k i n ->. apply marked_mark.
  - intros h a b H. replace (marked a || marked b) with true; [apply marked_mark|]. symmetry. apply orb_true_iff. exact H.
  - intros alg k n aad pt k' n' aad' pt' -> -> ->. reflexivity.
  - intros alg k n aad pt. destruct (marked k); [apply zeros_len|apply (ok_aead_len _ toy_ok)].
  - intros h k i n. destruct (marked k); [apply mark_len|apply (ok_expand _ toy_ok)].
Qed.
Lemma veil_private pub : marked pub = true -> private veil pub.
Proof. intros H kem kdf aead info rnd pt pt' L. cbn [veil cr_hpkeSeal]. now rewrite H, L. Qed.
Lemma veil_sized : sized_signatures veil.
Proof. exists (fun _ => 32). intros alg key rnd m s H. cbn in H. injection H as <-. apply toyDigest_len. Qed.

(** *** Messages in groups of Alice and of Bob with the same name *)
Definition quiet : bytes := xff :: fill 31 x01.
Definition loud : bytes := xff :: fill 31 x02.
Definition ownGroup (kpp : keyPairPackage) (name : string) (secret : bytes) : group := getOr noGroup (@createGroup veil (str name) kpp secret).
Definition said (g : group) (d : string) (guard : string) : bytes := getOr [] (@createApplicationMessage veil g (str d) [] (str guard)).

Theorem messages_example : exists g g' m,
  ideal veil secretly /\ sized_signatures veil /\ same_header g g' /\ secretly (gr_epochSecret g) /\ secretly (gr_epochSecret g') /\
  gr_epochSecret g <> gr_epochSecret g' /\ gr_signaturePriv g <> gr_signaturePriv g' /\
  @createApplicationMessage veil g (str "buy") [] (str "abcd") = Ok m /\
  @createApplicationMessage veil g' (str "tea") [] (str "efgh") = Ok m.
Proof.
  exists (ownGroup alice "grp" quiet), (ownGroup bob "grp" loud), (said (ownGroup alice "grp" quiet) "buy" "abcd").
  split; [exact veil_ideal|]. split; [exact veil_sized|]. split; [vm_compute; auto|]. split; [vm_compute; reflexivity|]. split; [vm_compute; reflexivity|].
  split; [vm_compute; discriminate|]. split; [vm_compute; discriminate|]. split; vm_compute; reflexivity.
Qed.

(** Not so with a key that is known. *)
Theorem messages_known : exists g m m',
  ideal veil secretly /\ ~ secretly (gr_epochSecret g) /\
  @createApplicationMessage veil g (str "buy") [] (str "abcd") = Ok m /\
  @createApplicationMessage veil g (str "tea") [] (str "abcd") = Ok m' /\ m <> m' /\ lenN m = lenN m'.
Proof.
  exists (ownGroup alice "grp" (zeros 32)), (said (ownGroup alice "grp" (zeros 32)) "buy" "abcd"), (said (ownGroup alice "grp" (zeros 32)) "tea" "abcd").
  split; [exact veil_ideal|]. split; [vm_compute; discriminate|]. split; [vm_compute; reflexivity|]. split; [vm_compute; reflexivity|].
  split; [vm_compute; discriminate|vm_compute; reflexivity].
Qed.

(** *** Invitations to a group of Alice and to one of Bobby *)
Definition guest : keyPairPackage := Eval vm_compute in getOr noKeys
  (@generateKeyPairPackage veil 1 (mkCredential 1 (str "carol") []) (unixTime 2000000000) (unixTime 2000000000) (xff :: str "init") (str "enc") (str "sig") [] []).
Definition invited (g : group) : res (welcome * bytes) := snd (@createWelcome veil g [kpp_public guest] [] [] [str "x"] (str "abcd")).

Theorem welcomes_example : exists g1 g2 w m m',
  ideal veil secretly /\ secretly (gr_initSecret g1) /\ secretly (gr_initSecret g2) /\ private veil (kp_initKey (kpp_public guest)) /\
  gc_groupID (gr_context g1) <> gc_groupID (gr_context g2) /\ gr_epochSecret g1 <> gr_epochSecret g2 /\ gr_signaturePriv g1 <> gr_signaturePriv g2 /\
  snd (@createWelcome veil g1 [kpp_public guest] [] [] [str "x"] (str "abcd")) = Ok (w, m) /\
  snd (@createWelcome veil g2 [kpp_public guest] [] [] [str "x"] (str "abcd")) = Ok (w, m').
Proof.
  exists (ownGroup alice "grp" quiet), (ownGroup carol "lot" loud),
    (fst (getOr (noWelcome, []) (invited (ownGroup alice "grp" quiet)))), (snd (getOr (noWelcome, []) (invited (ownGroup alice "grp" quiet)))),
    (snd (getOr (noWelcome, []) (invited (ownGroup carol "lot" loud)))).
  split; [exact veil_ideal|]. split; [vm_compute; reflexivity|]. split; [vm_compute; reflexivity|]. split; [apply veil_private; vm_compute; reflexivity|].
  split; [vm_compute; discriminate|]. split; [vm_compute; discriminate|]. split; [vm_compute; discriminate|]. split; vm_compute; reflexivity.
Qed.

(** *** Forgetting: toy encryption with ideal key derivation *)
Definition oblivious : crypto := {|
  cr_hash := cr_hash toy;
  cr_hmac := cr_hmac toy;
  cr_extract := cr_extract veil;
  cr_expand := cr_expand veil;
  cr_aeadSeal := cr_aeadSeal toy;
  cr_aeadOpen := cr_aeadOpen toy;
  cr_deriveKeyPair := cr_deriveKeyPair toy;
  cr_generateKeyPair := cr_generateKeyPair toy;
  cr_hpkeSeal := cr_hpkeSeal toy;
  cr_hpkeOpen := cr_hpkeOpen toy;
  cr_sign := cr_sign toy;
  cr_verify := cr_verify toy;
  cr_ecdsaPubValid := cr_ecdsaPubValid toy;
  cr_ecdsaSigParses := cr_ecdsaSigParses toy;
  cr_sigKeyPair := cr_sigKeyPair toy |}.
Lemma oblivious_ok : crypto_ok oblivious.
Proof.
  destruct toy_ok as [A1 A2 A3 A4 A5 A6 A7 A8 A9]. constructor; try assumption.
  - intros h a b. cbn [oblivious cr_extract veil]. destruct (_ || _); [apply mark_len|apply A3].
  - intros h k i n. cbn [oblivious cr_expand veil]. destruct (marked k); [apply mark_len|apply A4].
Qed.
Lemma oblivious_one_way : one_way oblivious secretly.
Proof.
  unfold secretly. constructor; cbn [oblivious cr_extract cr_expand veil].
  - intros h k k' i n -> ->. reflexivity.
  - intros h a b b' -> ->. rewrite !orb_true_r. reflexivity.
Qed.

Definition founder : group := Eval vm_compute in getOr noGroup (@createGroup oblivious (str "grp") alice quiet).
Definition invitation : group * (welcome * bytes) := Eval vm_compute in
  let (g, r) := @createWelcome oblivious founder [kpp_public bob] [] [] [str "x"] (str "abcd") in (g, getOr (noWelcome, []) r).
Definition hearO (g : group) (raw : bytes) : group := fst (@unmarshalAndProcessMessage oblivious g raw clock).
Definition pupil : group := Eval vm_compute in getOr noGroup (@groupFromWelcome oblivious (fst (snd invitation)) bob clock).
Definition founder1 : group := Eval vm_compute in hearO (fst invitation) (snd (snd invitation)).
Definition invitation2 : group * (welcome * bytes) := Eval vm_compute in
  let (g, r) := @createWelcome oblivious founder1 [kpp_public carol] [] [] [str "x"] (str "abcd") in (g, getOr (noWelcome, []) r).
Definition pupil1 : group := Eval vm_compute in hearO pupil (snd (snd invitation2)).
Definition addition : res authenticatedContent := Eval vm_compute in
  let! m := unmarshal getMlsMessage (snd (snd invitation2)) in
  match m with MPrivate p => @openPrivateMessage oblivious pupil p | _ => Err "" end.
Definition noContent : authenticatedContent := mkAuthenticatedContent 0 (mkFramedContent [] 0 (SMember 0) [] (BApplication [])) (mkAuthData [] []).
Definition theCommit : commit := Eval vm_compute in
  match fc_body (ac_content (getOr noContent addition)) with BCommit c => c | _ => mkCommit [] None end.

Lemma pupil_accepts : @accepts_commit oblivious pupil (snd (snd invitation2)) clock (getOr noContent addition) theCommit pupil1.
Proof.
  split; [|split; [vm_compute; reflexivity|vm_compute; reflexivity]].
  destruct (unmarshal getMlsMessage (snd (snd invitation2))) as [[m|m| | |]| | |] eqn:E; try (exfalso; vm_compute in E; discriminate).
  apply (@openPrivateMessage_ok oblivious pupil m (getOr noContent addition) _ E).
  assert (K : addition = @openPrivateMessage oblivious pupil m).
  { transitivity (let! m := unmarshal getMlsMessage (snd (snd invitation2)) in match m with MPrivate p => @openPrivateMessage oblivious pupil p | _ => Err "" end);
      [vm_compute; reflexivity|]. rewrite E. reflexivity. }
  rewrite <- K. vm_compute. reflexivity.
Qed.

Theorem forgets_example : exists C secret g e i p raw ac c g',
  crypto_ok C /\ one_way C secret /\ secret (gr_epochSecret g) /\ secret (gr_initSecret g) /\ secret e /\ secret i /\
  gr_epochSecret g <> e /\ gr_initSecret g <> i /\ gr_pskSecret g <> p /\
  @accepts_commit C g raw clock ac c g' /\ @accepts_commit C (with_secrets g e i p) raw clock ac c g'.
Proof.
  exists oblivious, secretly, pupil, quiet, loud, [], (snd (snd invitation2)), (getOr noContent addition), theCommit, pupil1.
  assert (A : secretly (gr_epochSecret pupil)) by (vm_compute; reflexivity). assert (B : secretly (gr_initSecret pupil)) by (vm_compute; reflexivity).
  assert (A' : secretly quiet) by (vm_compute; reflexivity). assert (B' : secretly loud) by (vm_compute; reflexivity).
  split; [exact oblivious_ok|]. split; [exact oblivious_one_way|]. split; [exact A|]. split; [exact B|]. split; [exact A'|]. split; [exact B'|].
  split; [vm_compute; discriminate|]. split; [vm_compute; discriminate|]. split; [vm_compute; discriminate|]. split; [exact pupil_accepts|].
  exact (forgets oblivious_one_way pupil quiet loud [] A B A' B' _ _ _ _ _ pupil_accepts).
Qed.
