(** Concrete runs that contradict some of the stated properties. *)
From Verif Require Export MessageFacts Scenario.

(** Acceptance of a public commit, by evaluation *)
Definition acceptedPublic (g : group) (raw : bytes) : option (publicMessage * commit * group) :=
  match unmarshal getMlsMessage raw with
  | Ok (MPublic m) =>
    match fc_body (pubm_content m) with
    | BCommit c => match @unmarshalAndProcessMessage toy g raw clock with
                   | (g', Ok None) => Some (m, c, g')
                   | _ => None
                   end
    | _ => None
    end
  | _ => None
  end.
Definition publicContent (m : publicMessage) : authenticatedContent := mkAuthenticatedContent 1 (pubm_content m) (pubm_auth m).

Lemma acceptedPublic_commit g raw m c g' : acceptedPublic g raw = Some (m, c, g') ->
  @accepts_commit toy g raw clock (publicContent m) c g'.
Proof.
  unfold acceptedPublic. destruct (unmarshal getMlsMessage raw) as [[m'|?|?|?|?]|?|?|] eqn:Er; try discriminate.
  destruct (fc_body (pubm_content m')) as [?|?|c'] eqn:Eb; try discriminate.
  destruct (unmarshalAndProcessMessage g raw clock) as [g1 [[d|]|?|?|]] eqn:Ep; try discriminate.
  intros H. inversion H; subst. split; [now apply carries_public|]. auto.
Qed.

Definition noMessage : publicMessage := mkPublicMessage (mkFramedContent [] 0 SNewMemberCommit [] (BApplication [])) (mkAuthData [] []) [].
Definition noCommit : commit := mkCommit [] None.
Definition getSome {A} (d : A) (o : option A) : A := match o with Some a => a | None => d end.

(** *** Carol proposes an update of their leaf and commits it, using 2^31 + 2
    for their leaf index 2 in the commit. *)
Definition w27update : bytes := Eval vm_compute in
  getOr [] (@sendPublic toy gc 2 (BProposal (PUpdate (kp_leafNode (kpp_public dave)))) [] []).
Definition w27a : group := Eval vm_compute in fst (receive ga (Ok w27update)).
Definition w27ref : bytes := Eval vm_compute in match gr_pending w27a with [pp] => pp_ref pp | _ => [] end.
Definition w27raw : bytes := Eval vm_compute in
  getOr [] (@sendPathCommit toy (fst (receive gc (Ok w27update))) (2 ^ 31 + 2) [PorReference w27ref] []
              (pad 32 (str "new leaf")) [] (pad 32 (str "seed")) (str "r")).
Definition w27 := Eval vm_compute in getSome (noMessage, noCommit, noGroup) (acceptedPublic w27a w27raw).

(** *** Bob commits Carol's update together with a removal of leaf 2^31 + 2. *)
Definition w27raw2 : bytes := Eval vm_compute in
  getOr [] (@sendPathCommit toy (fst (receive gb (Ok w27update))) 1 [PorReference w27ref; PorProposal (PRemove (2 ^ 31 + 2))] []
              (pad 32 (str "new leaf")) [] (pad 32 (str "seed")) (str "r")).
Definition w27' := Eval vm_compute in getSome (noMessage, noCommit, noGroup) (acceptedPublic w27a w27raw2).

Lemma w27_accepted : acceptedPublic w27a w27raw = Some w27.
Proof. vm_compute. reflexivity. Qed.
Lemma w27_accepted2 : acceptedPublic w27a w27raw2 = Some w27'.
Proof. vm_compute. reflexivity. Qed.

Lemma commit_from_own_update :
  exists (C : crypto) g raw now ac c g' li ps leaf s,
    crypto_ok C /\ accepts_commit g raw now ac c g' /\ fc_sender (ac_content ac) = SMember li /\ commits g li c ps /\
    In (PUpdate leaf, s) ps /\ leaf_position s = leaf_position li.
Proof.
  exists toy, w27a, w27raw, clock, (publicContent (fst (fst w27))), (snd (fst w27)), (snd w27), (2 ^ 31 + 2),
    [(PUpdate (kp_leafNode (kpp_public dave)), 2)], (kp_leafNode (kpp_public dave)), 2.
  split; [exact toy_ok|]. split; [|split; [reflexivity|split; [|split; [left; reflexivity|reflexivity]]]].
  - apply acceptedPublic_commit. rewrite w27_accepted. now destruct w27 as [[? ?] ?].
  - apply (proj1 (resolveProposals_spec _ _ _ _)). vm_compute. reflexivity.
Qed.

Lemma commit_with_two_targets :
  exists (C : crypto) g raw now ac c g' li ps leaf s r s',
    crypto_ok C /\ accepts_commit g raw now ac c g' /\ fc_sender (ac_content ac) = SMember li /\ commits g li c ps /\
    In (PUpdate leaf, s) ps /\ In (PRemove r, s') ps /\ leaf_position s = leaf_position r.
Proof.
  exists toy, w27a, w27raw2, clock, (publicContent (fst (fst w27'))), (snd (fst w27')), (snd w27'), 1,
    [(PUpdate (kp_leafNode (kpp_public dave)), 2); (PRemove (2 ^ 31 + 2), 1)],
    (kp_leafNode (kpp_public dave)), 2, (2 ^ 31 + 2), 1.
  split; [exact toy_ok|]. split; [|split; [reflexivity|split; [|split; [left; reflexivity|split; [right; left; reflexivity|reflexivity]]]]].
  - apply acceptedPublic_commit. rewrite w27_accepted2. now destruct w27' as [[? ?] ?].
  - apply (proj1 (resolveProposals_spec _ _ _ _)). vm_compute. reflexivity.
Qed.

(** *** Bob adds Dave with a commit whose confirmation tag is "bogus". *)
Definition w46raw : bytes := Eval vm_compute in
  getOr [] (@sendPublic toy gb 1 (BCommit (mkCommit [PorProposal (PAdd (kpp_public dave))] None)) [] (str "bogus")).
Definition w46 := Eval vm_compute in getSome (noMessage, noCommit, noGroup) (acceptedPublic ga w46raw).
Lemma w46_accepted : acceptedPublic ga w46raw = Some w46.
Proof. vm_compute. reflexivity. Qed.

Lemma wrong_confirmation_tag :
  exists (C : crypto) g raw now ac c g',
    crypto_ok C /\ accepts_commit g raw now ac c g' /\
    ad_confirmationTag (ac_auth ac) <> confirmation_tag (gr_context g') (gr_epochSecret g').
Proof.
  exists toy, ga, w46raw, clock, (publicContent (fst (fst w46))), (snd (fst w46)), (snd w46).
  split; [exact toy_ok|]. split; [|vm_compute; discriminate].
  apply acceptedPublic_commit. rewrite w46_accepted. now destruct w46 as [[? ?] ?].
Qed.

(** *** Bob commits to new group context extensions. *)
Definition w55exts : list extension := [mkExtension 5 (str "external senders")].
Definition w55raw : bytes := Eval vm_compute in
  getOr [] (@sendPathCommit toy gb 1 [PorProposal (PGroupContextExtensions w55exts)] []
              (pad 32 (str "new leaf")) [] (pad 32 (str "seed")) (str "r")).
Definition w55 := Eval vm_compute in getSome (noMessage, noCommit, noGroup) (acceptedPublic ga w55raw).
Lemma w55_accepted : acceptedPublic ga w55raw = Some w55.
Proof. vm_compute. reflexivity. Qed.

Lemma extensions_ignored :
  exists (C : crypto) g raw now ac c g' exts,
    crypto_ok C /\ accepts_commit g raw now ac c g' /\
    c_proposals c = [PorProposal (PGroupContextExtensions exts)] /\ gc_extensions (gr_context g') <> exts.
Proof.
  exists toy, ga, w55raw, clock, (publicContent (fst (fst w55))), (snd (fst w55)), (snd w55), w55exts.
  split; [exact toy_ok|]. split; [|split; [reflexivity|vm_compute; discriminate]].
  apply acceptedPublic_commit. rewrite w55_accepted. now destruct w55 as [[? ?] ?].
Qed.

(** *** Bob commits to a PSK that Alice does not have. *)
Definition w56id : preSharedKeyID := PskExternal (str "id") (str "nonce").
Definition w56raw : bytes := Eval vm_compute in
  getOr [] (@sendPublic toy gb 1 (BCommit (mkCommit [PorProposal (PPsk w56id)] None)) [] (str "tag")).
Definition w56 := Eval vm_compute in getSome (noMessage, noCommit, noGroup) (acceptedPublic ga w56raw).
Lemma w56_accepted : acceptedPublic ga w56raw = Some w56.
Proof. vm_compute. reflexivity. Qed.

Lemma psk_ignored :
  exists (C : crypto) g raw now ac c g' id psk s,
    crypto_ok C /\ accepts_commit g raw now ac c g' /\ c_proposals c = [PorProposal (PPsk id)] /\
    extractPSKSecret (gc_cipherSuite (gr_context g)) [id] [psk] = Ok s /\ gr_pskSecret g' <> s /\ gr_pskSecret g' = zeros 32.
Proof.
  exists toy, ga, w56raw, clock, (publicContent (fst (fst w56))), (snd (fst w56)), (snd w56), w56id, (str "psk"),
    (getOr [] (@extractPSKSecret toy 1 [w56id] [str "psk"])).
  split; [exact toy_ok|]. split; [|split; [reflexivity|split; [vm_compute; reflexivity|split; [vm_compute; discriminate|vm_compute; reflexivity]]]].
  apply acceptedPublic_commit. rewrite w56_accepted. now destruct w56 as [[? ?] ?].
Qed.

(** *** Bob's application messages *)
Definition w35raw : bytes := Eval vm_compute in getOr [] (@createApplicationMessage toy gb (str "hello") [] (str "efgh")).
Lemma replay_delivered :
  exists (C : crypto) g raw now data,
    crypto_ok C /\ unmarshalAndProcessMessage g raw now = (g, Ok (Some data)) /\ data <> [] /\
    unmarshalAndProcessMessage (fst (unmarshalAndProcessMessage g raw now)) raw now = (g, Ok (Some data)).
Proof.
  exists toy, ga, w35raw, clock, (str "hello"). split; [exact toy_ok|]. split; [vm_compute; reflexivity|].
  split; [vm_compute; discriminate|vm_compute; reflexivity].
Qed.

Definition w36raw : bytes := Eval vm_compute in getOr [] (@createApplicationMessage toy gb (str "other") [] (str "efgh")).
Definition privateOf (raw : bytes) : privateMessage :=
  match unmarshal getMlsMessage raw with Ok (MPrivate m) => m | _ => mkPrivateMessage [] 0 0 [] [] [] end.
Definition w36secret := Eval vm_compute in getOr (mkRatchetSecret [] 0) (@messageSecret toy gb 1 1 0).
Definition w36keys := Eval vm_compute in getOr ([], []) (@derivePrivateMessageKeyAndNonce toy 1 w36secret (str "efgh")).

Lemma key_and_nonce_reused :
  exists (C : crypto) g d1 d2 rnd guard raw1 raw2 key nonce pt1 pt2,
    crypto_ok C /\ createApplicationMessage g d1 rnd guard = Ok raw1 /\ createApplicationMessage g d2 rnd guard = Ok raw2 /\
    sealed_under raw1 key nonce pt1 /\ sealed_under raw2 key nonce pt2 /\ pt1 <> pt2.
Proof.
  exists toy, gb, (str "hello"), (str "other"), [], (str "efgh"), w35raw, w36raw, (fst w36keys), (snd w36keys),
    (skipn 16 (privm_ciphertext (privateOf w35raw))), (skipn 16 (privm_ciphertext (privateOf w36raw))).
  split; [exact toy_ok|]. split; [vm_compute; reflexivity|]. split; [vm_compute; reflexivity|].
  split; [|split; [|vm_compute; discriminate]].
  - exists (privateOf w35raw), AES128GCM, (getOr [] (putPrivateContentAAD (str "grp") 1 1 [])). split; vm_compute; reflexivity.
  - exists (privateOf w36raw), AES128GCM, (getOr [] (putPrivateContentAAD (str "grp") 1 1 [])). split; vm_compute; reflexivity.
Qed.

(** *** Unknown cipher suites *)
Definition w62kp : keyPackage := mkKeyPackage 1 4660 (str "init") (kp_leafNode (kpp_public alice)) [] (str "sig").
Definition w62raw : bytes := Eval vm_compute in getOr [] (keyPackageBytes w62kp).
Lemma unknown_suite_key_package :
  exists (C : crypto) raw k msg, crypto_ok C /\ unmarshalKeyPackage raw = Ok k /\ keyPackageRef k = Panic msg.
Proof.
  exists toy, w62raw, w62kp, "mls: invalid cipher suite"%string. split; [exact toy_ok|]. split; vm_compute; reflexivity.
Qed.
Definition w62welcome : welcome := Eval vm_compute in
  mkWelcome 4660 [mkEncryptedGroupSecrets (getOr [] (@keyPackageRef toy (kpp_public alice))) (mkHpkeCiphertext [] [])] [].
Definition w62wraw : bytes := Eval vm_compute in getOr [] (putMlsMessage (MWelcome w62welcome)).
Lemma unknown_suite_welcome :
  exists (C : crypto) raw w kpp msg now, crypto_ok C /\ unmarshalWelcome raw = Ok w /\ groupFromWelcome w kpp now = Panic msg.
Proof.
  exists toy, w62wraw, w62welcome, alice, "mls: invalid cipher suite"%string, clock.
  split; [exact toy_ok|]. split; vm_compute; reflexivity.
Qed.
