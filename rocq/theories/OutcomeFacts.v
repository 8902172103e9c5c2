(** What the operations do to the groups that the exported operations give. *)
From Verif Require Export ObtainedFacts.

Section WithCrypto.
Context {C : crypto}.

Lemma framed_state g h : same_but_unmerged (gr_value g) (gr_value (withHeap g h)) ->
  same_state_but_unmerged g (withHeap g h) /\ (leaves_only (gr_value g) -> same_state g (withHeap g h)).
Proof.
  intros H. split; [unfold same_state_but_unmerged; splits; auto|]. intros L. pose proof (same_but_unmerged_leaves _ _ L H) as E. unfold same_state, agree. splits; auto.
Qed.

Theorem error_outcome g raw now g' e : obtained g -> unmarshalAndProcessMessage g raw now = (g', Err e) ->
  same_state_but_unmerged g g' /\ (leaves_only (gr_value g) -> same_state g g').
Proof.
  intros Ho H. destruct (message_error _ _ _ _ _ (proj1 (sane_consistent _ (obtained_sane _ Ho))) H) as (h & -> & Hs). now apply framed_state.
Qed.
Theorem welcome_outcome g kps rs ri rh rg g' r : obtained g -> createWelcome g kps rs ri rh rg = (g', r) ->
  same_state_but_unmerged g g' /\ (leaves_only (gr_value g) -> same_state g g').
Proof.
  intros Ho H. destruct (createWelcome_frame _ _ _ _ _ _ _ _ (proj1 (sane_consistent _ (obtained_sane _ Ho))) H) as (h & -> & Hs). now apply framed_state.
Qed.

Theorem message_outcome g m data rnd rg raw now : crypto_ok C -> obtained g -> can_sign g -> same_epoch g m -> lenN rg = 4 ->
  createApplicationMessage g data rnd rg = Ok raw -> unmarshalAndProcessMessage m raw now = (m, Ok (Some data)).
Proof.
  intros HC Ho Hs He Hg H. pose proof (obtained_sane _ Ho) as S. apply (application_delivered g m data rnd rg raw now HC); auto; apply S.
Qed.

(** A group in a given epoch *)
Definition someone (e : epochData) : group :=
  mkGroup (fst (load (ed_tree e))) (snd (load (ed_tree e))) (ed_context e) (ed_interim e) (ed_psk e) (ed_epoch e) (ed_init e) 0 [] [] [].
Lemma someone_in e : in_epoch (someone e) e.
Proof.
  unfold in_epoch, someone, gr_value. cbn [gr_heap gr_tree gr_context gr_interimTranscriptHash gr_pskSecret gr_epochSecret gr_initSecret].
  destruct (load (ed_tree e)) as [h t] eqn:E. apply load_value in E. cbn [fst snd]. destruct E as [-> _]. splits; reflexivity.
Qed.

(** What key packages must be for a commit that adds them to be accepted *)
Theorem welcome_accepted g kps rs ri rh rg g1 w raw : crypto_ok C -> obtained g -> can_sign g -> lenN rg = 4 ->
  Forall wf_keyPackage kps -> Forall (addable (gr_context g)) kps -> NoDup (map (fun k => ln_signatureKey (kp_leafNode k)) kps) ->
  createWelcome g kps rs ri rh rg = (g1, Ok (w, raw)) ->
  exists s, (forall m now, consistent m -> agree g m -> exists m', unmarshalAndProcessMessage m raw now = (m', Ok None) /\ agree s m') /\
    (leaves_only (gr_value g) -> forall now, exists g2, unmarshalAndProcessMessage g1 raw now = (g2, Ok None) /\ agree s g2).
Proof.
  intros HC Ho Hs Hg Hw Ha Nd H. pose proof (obtained_sane _ Ho) as S. pose proof (sane_consistent _ S) as Hc.
  destruct (createWelcome_parts _ _ _ _ _ _ _ _ _ HC (proj1 Hc) H) as (Hne & _ & e & sg & tag & joiner & W).
  assert (R : forall m now, consistent m -> agree g m -> exists m', unmarshalAndProcessMessage m raw now = (m', Ok None) /\ agree (someone e) m').
  { intros m now Hm Hag. destruct (commit_processed g kps rs ri rh rg w raw e sg tag joiner m now) as (m' & H1 & H2 & _); auto; try apply S.
    exists m'. split; [assumption|]. exact (in_epoch_agree _ _ _ (someone_in e) H2). }
  exists (someone e). split; [exact R|]. intros L now.
  destruct (createWelcome_frame _ _ _ _ _ _ _ _ (proj1 Hc) H) as (h & -> & Hu). apply R.
  - apply withHeap_sane in Hu; [|exact S]. apply Hu.
  - now apply framed_state.
Qed.

Theorem welcome_agreement g kps rs ri rh rg g1 w raw kpp now : crypto_ok C -> in_order g -> may_join g kps -> lenN rg = 4 ->
  createWelcome g kps rs ri rh rg = (g1, Ok (w, raw)) -> NoDup (welcomeNewMembers w) ->
  In (kpp_public kpp) kps -> holds_private_keys kpp -> later_than_1970 now -> all_current g kps now ->
  exists j, groupFromWelcome w kpp now = Ok j /\ leaf_at (gr_value j) (gr_myLeafIndex j) = Some (kp_leafNode (kpp_public kpp)) /\ in_order j /\
    forall m now', consistent m -> agree g m -> exists m', unmarshalAndProcessMessage m raw now' = (m', Ok None) /\ agree m' j.
Proof.
  intros HC Ho Hm Hg H Nd Hin Hk Hl Hcur.
  destruct (createWelcome_parts _ _ _ _ _ _ _ _ _ HC (proj1 (io_consistent _ Ho)) H) as (Hne & _ & e & sg & tag & joiner & W).
  destruct (welcome_joined _ _ _ _ _ _ _ _ _ _ _ _ _ _ HC Ho Hm W Nd Hin Hk Hl Hcur) as (_ & _ & j & J1 & J2 & J3 & J4 & _).
  exists j. splits; auto. intros m now' Hcm Hag. destruct Hm as (Hwk & Hadd & Hnew & Hgo).
  destruct (commit_processed g kps rs ri rh rg w raw e sg tag joiner m now') as (m' & M1 & M2 & _); auto; try apply Ho.
  - now apply (go_together_keys (gr_value g)).
  - exists m'. split; [assumption|]. exact (in_epoch_agree _ _ _ M2 J2).
Qed.

Theorem conversation_agrees gs : crypto_ok C -> conversation gs ->
  (forall a b, In a gs -> In b gs -> agree a b) /\
  (forall g m data rnd rg raw now, In g gs -> In m gs -> lenN rg = 4 -> createApplicationMessage g data rnd rg = Ok raw ->
     unmarshalAndProcessMessage m raw now = (m, Ok (Some data))).
Proof.
  intros HC H. destruct (conversation_together _ HC H) as (e & T). split.
  - intros a b Ha Hb. destruct T as [_ F]. rewrite Forall_forall in F. destruct (F _ Ha) as [Ea _], (F _ Hb) as [Eb _]. exact (in_epoch_agree _ _ _ Ea Eb).
  - intros g m data rnd rg raw now Hg Hm. now apply (message_heard e gs).
Qed.
Theorem conversation_grows before g after kpps rs ri rh rg g1 w raw : crypto_ok C -> conversation (before ++ g :: after) -> lenN rg = 4 ->
  may_join g (map kpp_public kpps) -> Forall holds_private_keys kpps ->
  createWelcome g (map kpp_public kpps) rs ri rh rg = (g1, Ok (w, raw)) -> NoDup (welcomeNewMembers w) ->
  exists s,
    (forall m now, In m (before ++ g1 :: after) -> exists m', unmarshalAndProcessMessage m raw now = (m', Ok None) /\ agree s m') /\
    (forall kpp now, In kpp kpps -> later_than_1970 now -> all_current g (map kpp_public kpps) now ->
      exists j, groupFromWelcome w kpp now = Ok j /\ agree s j /\ leaf_at (gr_value j) (gr_myLeafIndex j) = Some (kp_leafNode (kpp_public kpp))).
Proof.
  intros HC H Hg Hm Hk Hc Nd. destruct (conversation_together _ HC H) as (e & T).
  destruct (welcome_round e before g after kpps rs ri rh rg g1 w raw HC T Hg Hm Hk Hc Nd) as (e' & _ & R1 & R2). exists (someone e'). split.
  - intros m now Hin. destruct (R1 m now Hin) as (m' & H1 & [H2 _] & _). exists m'. split; [assumption|]. exact (in_epoch_agree _ _ _ (someone_in e') H2).
  - intros kpp now Hin Hl Hcur. destruct (R2 kpp now Hin Hl Hcur) as (j & H1 & [H2 _] & H3). exists j. splits; auto. exact (in_epoch_agree _ _ _ (someone_in e') H2).
Qed.

Theorem package_valid cs cred t0 t1 r1 r2 r3 r4 r5 kpp : crypto_ok C -> u16 cs -> wf_credential cred ->
  generateKeyPairPackage cs cred t0 t1 r1 r2 r3 r4 r5 = Ok kpp ->
  let k := kpp_public kpp in
  holds_private_keys kpp /\ leaf_signed_anywhere cs (kp_leafNode k) /\
  (lenN (kp_signature k) < 2 ^ 30 -> exists raw, keyPackageBytes k = Ok raw) /\
  (forall raw, keyPackageBytes k = Ok raw -> unmarshalKeyPackage raw = Ok k) /\
  (ln_encryptionKey (kp_leafNode k) <> kp_initKey k -> forall ctx, gc_version ctx = 1 -> gc_cipherSuite ctx = cs -> keyPackageVerify k ctx = Ok tt).
Proof.
  intros HC Hcs Hcr H. destruct (generated_valid cs cred t0 t1 r1 r2 r3 r4 r5 kpp HC Hcs Hcr H) as (_ & _ & _ & _ & _ & _ & G7 & G8 & G9 & G10 & G11). cbv zeta.
  splits; auto. intros Hne ctx Hv Hc. apply keyPackageVerify_addable, G9; auto.
Qed.
End WithCrypto.
