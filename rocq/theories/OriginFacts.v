(** Who has made what is accepted. *)
From Verif Require Export SpecOrigin.
From Verif Require Import SpecCodecFacts WholeFacts CreateFacts KeyPackageFacts AgreementFacts EpochFacts CrashFacts TypesFacts JoinFacts.

Section WithCrypto.
Context {C : crypto}.

Lemma signed_ok o e : can_encode (match o with
    | SignLeafNode l g i => putLeafNodeTBS l g i | SignKeyPackage k => putKeyPackageTBS k
    | SignGroupInfo g => putGroupInfoTBS g | SignFramedContent w c x => putFramedContentTBS w c x end) ->
  e = enc_labelled (signed_label o) (signed_content o) -> signedBytes o = Ok e.
Proof.
  intros (tbs & H & Hl) ->.
  assert (E : exists e, signedBytes o = Ok e).
  { destruct o; cbn [signedBytes] in *; rewrite H; cbn [rbind]; eexists; (apply labelled_fits; [reflexivity|exact Hl]). }
  destruct E as (e & E). rewrite E. f_equal. now apply signed_bytes_rfc.
Qed.

(** What was verified is the same as what was signed. *)
Lemma vouched_same did priv o : wf_signedObject o -> signedBytes o = Ok (enc_labelled (signed_label o) (signed_content o)) ->
  vouched did priv o -> exists c o', did c /\ lawful_call c /\ call_signs c priv o' /\ (wf_signedObject o' -> same_signed o o') /\ signed_label o = signed_label o' /\ is_ok (signedBytes o') = true.
Proof.
  intros Wo Ho (c & o' & Hd & Hl & Hs & E). exists c, o'. splits; auto.
  - intros Wo'. eapply signedBytes_inj; eauto.
  - clear Hs Wo. destruct o, o'; cbn [signedBytes signed_label] in *; try reflexivity;
      apply rbind_ok in Ho as (t1 & _ & Ho); apply rbind_ok in E as (t2 & _ & E); now destruct (putLabelled_inj _ _ _ _ _ Ho E).
  - now rewrite E.
Qed.

Lemma member_wf g b : lawful g -> wf_body b -> wf_signedObject (SignFramedContent 2 (member_content g b) (gr_context g)).
Proof.
  intros L Wb. pose proof (lawful_holds _ L) as [_ W2 W3 _]. split; [reflexivity|]. split; [|exact W2].
  split; [apply W2|]. split; [exact W3|exact Wb].
Qed.
Lemma additions_wf kps : Forall wf_keyPackage kps -> wf_body (additions kps).
Proof.
  intros H. split; [|exact I]. cbn [c_proposals]. apply Forall_forall. intros p Hp. apply in_map_iff in Hp as (k & <- & Hin).
  rewrite Forall_forall in H. exact (H _ Hin).
Qed.

(** ** Messages *)
Lemma acted_signed g raw now g' r : unmarshalAndProcessMessage g raw now = (g', r) -> g' <> g \/ is_ok r = true ->
  exists ac, carries g raw ac /\ authentic g ac /\ can_encode (putFramedContentTBS (ac_wireFormat ac) (ac_content ac) (gr_context g)).
Proof.
  intros E Hor. pose proof (acted_on g raw now) as A. rewrite E in A. destruct (A Hor) as (ac & Hc & Ha & _). clear A. exists ac. splits; auto.
  unfold unmarshalAndProcessMessage in E. destruct (unmarshal getMlsMessage raw) as [mm|e|e|] eqn:Er; [|cbn [fst snd rmap] in E; destruct Hor; exfalso; [congruence|]; apply pair_equal_spec in E as [_ <-]; discriminate..].
  destruct mm as [m|m|w|gi|k]; try (destruct Hor; exfalso; [congruence|]; apply pair_equal_spec in E as [_ <-]; discriminate).
  - unfold noData, processPublicMessage in E. destruct (verifyPublicMessage g m) as [ac'|e|e|] eqn:Ev;
      [|cbn [fst snd rmap] in E; destruct Hor; exfalso; [congruence|]; apply pair_equal_spec in E as [_ <-]; discriminate..]. clear E.
    destruct (verifyPublicMessage_ok _ _ _ Ev) as (Hac & _ & _).
    assert (ac = ac') as ->. { eapply carries_fun; [exact Hc|]. rewrite Hac. now apply carries_public. }
    unfold verifyPublicMessage in Ev. rinv. destruct (fc_sender (pubm_content m)); try discriminate. rinv. destruct v as [leaf|]; try discriminate. rinv. subst.
    match goal with E : authContentVerifySignature _ _ _ = Ok true |- _ => unfold authContentVerifySignature in E; eapply put_verify in E as [E _]; [|apply writes_framedContentTBS|reflexivity]; exact E end.
  - unfold processPrivateMessage in E. destruct (openPrivateMessage g m) as [ac'|e|e|] eqn:Ev;
      [|cbn [fst snd rmap] in E; destruct Hor; exfalso; [congruence|]; apply pair_equal_spec in E as [_ <-]; discriminate..]. clear E.
    destruct (openPrivateMessage_ok _ _ _ _ Er Ev) as (Hac & _). assert (ac = ac') as -> by (eapply carries_fun; eauto).
    unfold openPrivateMessage in Ev. rinv. destruct v5 as [leaf|]; try discriminate. rinv. subst.
    match goal with E : authContentVerifySignature _ _ _ = Ok true |- _ => unfold authContentVerifySignature in E; eapply put_verify in E as [E _]; [|apply writes_framedContentTBS|reflexivity]; exact E end.
Qed.

Theorem messages_made did g raw now g' r : lawful g -> unmarshalAndProcessMessage g raw now = (g', r) -> g' <> g \/ is_ok r = true ->
  exists ac li key, carries g raw ac /\ sent_with_key g ac li key /\
    let o := SignFramedContent (ac_wireFormat ac) (ac_content ac) (gr_context g) in
    VerifyWithLabel (gc_cipherSuite (gr_context g)) key (signed_label o) (signed_content o) (ad_signature (ac_auth ac)) /\
    forall priv, vouched did priv o -> made_by_call did priv g li ac.
Proof.
  intros L E Hor. destruct (acted_signed _ _ _ _ _ E Hor) as (ac & Hc & (Hg & He & li & leaf & Hs & Hl & Hv) & Hcan).
  exists ac, li, (ln_signatureKey leaf). split; [exact Hc|].
  assert (El : leaf_at (gr_value g) (designated li) = Some leaf).
  { change ((2 * li) mod 2 ^ 32) with (leaf_position li) in Hl. rewrite leaf_position_designated in Hl. unfold leaf_at. now rewrite Hl. }
  split; [split; eauto|]. cbv zeta. split; [exact Hv|]. intros priv Hvo.
  destruct (carries_wf _ _ _ Hc) as [Wc Wu]. pose proof (lawful_holds _ L) as [_ Wx _ _].
  apply vouched_same in Hvo; [|now split; [exact Wu|split]|now apply signed_ok].
  destruct Hvo as (c & o' & Hd & Hlc & Hcs & Hsame & Hlab & _). destruct c as [cs cred t0 t1 r1 r2 r3 r4 r5|gs d rs rg|gs kps rs ri rh rg]; cbn [call_signs lawful_call] in *.
  - destruct Hcs as (kpp & _ & _ & [->| ->]); vm_compute in Hlab; discriminate.
  - destruct Hcs as (m & _ & Hp & ->). destruct (Hsame (member_wf _ (BApplication d) Hlc I)) as (H1 & H2 & H3). rewrite Hs in H3.
    assert (Hi : li = gr_myLeafIndex gs). { rewrite H2 in Hs. cbn [member_content fc_sender] in Hs. congruence. }
    exists gs. splits; auto; rewrite H2; cbn [member_content fc_body]; eauto.
  - destruct Hlc as [Hlg Hk]. destruct Hcs as (g2 & w & m & _ & Hp & [->|(k & t & sig & _ & ->)]); [|vm_compute in Hlab; discriminate].
    destruct (Hsame (member_wf _ _ Hlg (additions_wf _ Hk))) as (H1 & H2 & H3). rewrite Hs in H3.
    assert (Hi : li = gr_myLeafIndex gs). { rewrite H2 in Hs. cbn [member_content fc_sender] in Hs. congruence. }
    exists gs. splits; auto; rewrite H2; cbn [member_content fc_body additions]; [reflexivity|]. exists kps, rs, ri, rh, rg. auto.
Qed.

Theorem data_made did g raw now g' d : lawful g -> unmarshalAndProcessMessage g raw now = (g', Ok (Some d)) ->
  exists ac li key, carries g raw ac /\ sent_with_key g ac li key /\
    let o := SignFramedContent (ac_wireFormat ac) (ac_content ac) (gr_context g) in
    VerifyWithLabel (gc_cipherSuite (gr_context g)) key (signed_label o) (signed_content o) (ad_signature (ac_auth ac)) /\
    forall priv, vouched did priv o -> exists gs rs rg, did (CallMessage gs d rs rg) /\
      gr_signaturePriv gs = priv /\ gr_context gs = gr_context g /\ gr_myLeafIndex gs = li.
Proof.
  intros L E. destruct (messages_made did _ _ _ _ _ L E (or_intror eq_refl)) as (ac & li & key & Hc & Hk & Hv & Hm).
  destruct (application_data_returned _ _ _ _ _ E) as (_ & ac' & m & Hc' & _ & Hb & _). assert (ac' = ac) as -> by (eapply carries_fun; eauto).
  exists ac, li, key. split; [exact Hc|]. split; [exact Hk|]. cbv zeta. split; [exact Hv|]. intros priv Hvo. destruct (Hm priv Hvo) as (gs & _ & H1 & H2 & H3 & _ & _ & H). rewrite Hb in H.
  destruct H as (rs & rg & H). exists gs, rs, rg. auto.
Qed.

(** ** Welcomes *)
Lemma new_info_wf g kps k t sig : lawful g -> wf_groupInfo (new_info g kps k t sig).
Proof.
  intros L. pose proof (lawful_holds _ L) as [_ (W1 & W2 & W3 & W4) W5 _]. unfold new_info, wf_groupInfo. cbv zeta. cbn [gi_groupContext gi_extensions gi_signer].
  split; [|split; [repeat constructor|exact W5]]. unfold wf_groupContext, next_context. cbn [gc_version gc_cipherSuite gc_epoch gc_extensions]. splits; auto.
  unfold u64. apply N.mod_lt. discriminate.
Qed.
Lemma added_wf g kps rs k t sig : lawful g -> Forall wf_keyPackage kps -> adds_to g kps rs k t sig -> wf_nodes t.
Proof.
  intros L Hk (_ & (t1 & t2 & A1 & A2 & A3) & _). set (ps := map (fun k => (PAdd k, gr_myLeafIndex g)) kps) in *.
  assert (P2 : additionsOf ps = map kp_leafNode kps) by (unfold ps, additionsOf; clear; induction kps as [|k' kps IH]; cbn; congruence).
  assert (P3 : updatesOf ps = [] /\ removalsOf ps = []) by (unfold ps, updatesOf, removalsOf; clear; induction kps as [|k' kps IH]; cbn; auto).
  destruct P3 as [P3 P4]. rewrite P3 in A1. rewrite P4 in A2. rewrite P2 in A3. inversion A1; subst. inversion A2; subst. eapply joined_wf; [|apply (lawful_holds _ L)|exact A3].
  apply Forall_forall. intros l Hl. apply in_map_iff in Hl. destruct Hl as (k' & <- & Hin). rewrite Forall_forall in Hk. apply Hk in Hin. apply Hin.
Qed.
Lemma info_tree_small g kps k t sig : is_ok (signedBytes (SignGroupInfo (new_info g kps k t sig))) = true -> lenN (enc_ratchetTree t) < 2 ^ 30.
Proof.
  intros H. destruct (signedBytes _) as [e| | |] eqn:E; try discriminate. cbn [signedBytes] in E. apply rbind_ok in E as (tbs & Et & E).
  apply labelled_bound in E. apply writes_groupInfoTBS in Et. subst tbs. revert E. unfold new_info, enc_groupInfoTBS. cbv zeta.
  cbn [gi_groupContext gi_extensions gi_confirmationTag gi_signer]. rewrite !lenN_app. unfold enc_extensions, vecOf. cbn [map concat]. rewrite app_nil_r. unfold enc_extension. cbn [ext_type ext_data].
  match goal with |- context [vec (num 2 2 ++ vec (enc_ratchetTree t))] => pose proof (vec_len (num 2 2 ++ vec (enc_ratchetTree t))) as Hv end.
  rewrite lenN_app in Hv. pose proof (vec_len (enc_ratchetTree t)). lia.
Qed.

Theorem welcomes_made did w kpp now g : groupFromWelcome w kpp now = Ok g ->
  exists gi signer, leaf_at (gr_value g) (designated (gi_signer gi)) = Some signer /\
    let o := SignGroupInfo gi in
    VerifyWithLabel (gc_cipherSuite (gr_context g)) (ln_signatureKey signer) (signed_label o) (signed_content o) (gi_signature gi) /\
    forall priv, vouched did priv o -> invited_by_call did priv g (gi_signer gi).
Proof.
  intros H. apply groupFromWelcome_inv in H. destruct H as (ref & s & Eref & Es & Epsks & H). apply groupFromSecrets_inv in H.
  destruct H as (psk & gi & raw & t & signer & epoch & init & interim & me & pr & Epsk & Egi & Eraw & Et & Esg & Esig & Etag & Ecs & Ev & Eep & Ein & Eint & Eme & -> & priv0 & Ep0 & Ep).
  assert (Wg : wf_groupInfo gi).
  { unfold decryptGroupInfo in Egi. cbv zeta in Egi. apply rbind_ok in Egi as ([key nonce] & _ & Egi). apply rbind_ok in Egi as (rawi & _ & Egi).
    apply unmarshal_ok in Egi. now apply groupInfo_CAN in Egi as [Wg _]. }
  pose proof (confirmation_verified _ _ _ _ Etag Eep) as Ht.
  unfold groupInfoVerifySignature in Esig. apply (put_verify _ _ _ _ _ _ (writes_groupInfoTBS _)) in Esig as [Hcan Hv]; [|reflexivity].
  destruct (load t) as [h p] eqn:El. destruct (load_value _ _ _ El) as (Hval & _).
  exists gi, signer. unfold gr_value. cbn [gr_context gr_heap gr_tree gr_epochSecret fst snd]. rewrite Hval. split.
  { apply getLeaf_some in Esg. rewrite nodeIndexOf_designated in Esg. unfold leaf_at. now rewrite Esg. }
  cbv zeta. split; [exact Hv|]. intros priv Hvo.
  apply vouched_same in Hvo; [|exact Wg|now apply signed_ok].
  destruct Hvo as (c & o' & Hd & Hlc & Hcs & Hsame & Hlab & Hok). destruct c as [cs cred t0 t1 r1 r2 r3 r4 r5|gs d rs rg|gs kps rs ri rh rg]; cbn [call_signs lawful_call] in *.
  - destruct Hcs as (kpp' & _ & _ & [->| ->]); vm_compute in Hlab; discriminate.
  - destruct Hcs as (m & _ & Hp & ->). vm_compute in Hlab; discriminate.
  - destruct Hlc as [Hlg Hk]. destruct Hcs as (g2 & w' & m & _ & Hp & [->|(k & t' & sig & Ha & ->)]); [vm_compute in Hlab; discriminate|].
    destruct (Hsame (new_info_wf _ _ _ _ _ Hlg)) as (H1 & H2 & H3 & H4).
    assert (Er : raw = enc_ratchetTree t'). { rewrite H2 in Eraw. unfold new_info in Eraw. cbv zeta in Eraw. cbn [gi_extensions findExtensionData ext_type ext_data] in Eraw. apply (f_equal (fun o => match o with Some x => x | None => [] end)) in Eraw. symmetry. exact Eraw. }
    subst raw. exists gs, kps, rs, ri, rh, rg, k, t', sig. unfold gr_value. cbn [gr_context gr_heap gr_tree gr_epochSecret fst snd]. rewrite Hval. splits; auto.
    + now rewrite <- Ht.
    + intros En. pose proof (info_tree_small _ _ _ _ _ Hok) as Hsm. pose proof (added_wf _ _ _ _ _ _ Hlg Hk Ha) as Wt.
      destruct Ha as (Sh & AP & _). pose proof (tree_total _ Wt Hsm) as Hput.
      assert (E : unmarshal getRatchetTree (enc_ratchetTree t') = Ok t').
      { apply (ratchetTree_roundtrip _ _ (whole_wf _ (or_intror (ex_intro _ k Sh)) Wt (ends_after _ _ _ AP En)) Hput). }
      rewrite E in Et. now apply Ok_inj in Et.
Qed.

(** ** Key packages *)
Lemma package_made did priv k ctx : crypto_ok C -> wf_keyPackage k -> addable ctx k -> vouched did priv (SignKeyPackage k) -> generated_by_call did priv k.
Proof.
  intros HC Wk (_ & _ & _ & _ & Hcan & _) Hvo.
  apply vouched_same in Hvo; [|exact Wk|now apply signed_ok].
  destruct Hvo as (c & o' & Hd & Hlc & Hcs & Hsame & Hlab & Hok). destruct c as [cs cred t0 t1 r1 r2 r3 r4 r5|gs d rs rg|gs kps rs ri rh rg]; cbn [call_signs lawful_call] in *.
  - destruct Hcs as (kpp & Hg & Hp & [->| ->]); [vm_compute in Hlab; discriminate|]. destruct Hlc as [Hu Hc].
    exists cs, cred, t0, t1, r1, r2, r3, r4, r5, kpp. splits; auto. apply Hsame. apply (generated_valid _ _ _ _ _ _ _ _ _ _ HC Hu Hc Hg).
  - destruct Hcs as (m & _ & Hp & ->). vm_compute in Hlab; discriminate.
  - destruct Hcs as (g2 & w' & m & _ & Hp & [->|(k' & t' & sig & Ha & ->)]); vm_compute in Hlab; discriminate.
Qed.
Theorem members_made did g raw now ac c g' li : crypto_ok C -> lawful g -> accepts_commit g raw now ac c g' -> fc_sender (ac_content ac) = SMember li ->
  exists ps, commits g li c ps /\ forall k s, In (PAdd k, s) ps ->
    let o := SignKeyPackage k in
    VerifyWithLabel (gc_cipherSuite (gr_context g)) (ln_signatureKey (kp_leafNode k)) (signed_label o) (signed_content o) (kp_signature k) /\
    forall priv, vouched did priv o -> generated_by_call did priv k.
Proof.
  intros HC L H Hs. destruct (commit_added_valid_member _ _ _ _ _ _ _ H Hs) as (ps & Hc & Ha). exists ps. split; [exact Hc|].
  intros k s Hin. cbv zeta. pose proof (Ha _ _ Hin) as Hk. split; [destruct Hk as (_ & Ek & _ & _ & _ & Hk); rewrite <- Ek; exact Hk|].
  intros priv. apply (package_made did priv k (gr_context g) HC); [|exact Hk]. destruct H as (Hca & Hb & _).
  destruct (carries_wf _ _ _ Hca) as [(_ & _ & Wb) _]. rewrite Hb in Wb.
  pose proof (commit_wf _ _ _ _ (obtained_inv _ (lawful_obtained _ L)) Wb Hc) as Wp. rewrite Forall_forall in Wp. exact (Wp _ Hin).
Qed.

(** ** What the calls send is vouched for *)
Lemma sign_labelled cs priv rnd l tbs sig : signWithLabel cs priv rnd l tbs = Ok sig -> exists m, putLabelled l tbs = Ok m.
Proof. unfold signWithLabel. intros H. apply rbind_ok in H as (m & Hm & _). eauto. Qed.
Lemma vouch (did : call -> Prop) c priv o e : did c -> lawful_call c -> call_signs c priv o -> signedBytes o = Ok e -> vouched did priv o.
Proof. intros Hd Hl Hs He. exists c, o. splits; auto. rewrite He. f_equal. now apply signed_bytes_rfc. Qed.

Theorem application_vouched (did : call -> Prop) g data rs rg raw : lawful g -> createApplicationMessage g data rs rg = Ok raw -> did (CallMessage g data rs rg) ->
  vouched did (gr_signaturePriv g) (SignFramedContent 2 (member_content g (BApplication data)) (gr_context g)).
Proof.
  intros L H Hd. pose proof H as H0. unfold createApplicationMessage in H. cbv zeta in H. apply rbind_ok in H as (pc & Hpc & _).
  apply signPrivate_inv in Hpc as (tbs & sg & Ht & Hs & _). apply sign_labelled in Hs as (m & Hm).
  eapply vouch; [exact Hd|exact L|exists raw; auto|]. cbn [signedBytes]. change wireFormatMLSPrivateMessage with 2 in Ht.
  change (ownContent g (BApplication data)) with (member_content g (BApplication data)) in Ht. rewrite Ht. exact Hm.
Qed.
Theorem welcome_vouched (did : call -> Prop) g kps rs ri rh rg g1 w raw : crypto_ok C -> lawful g -> Forall wf_keyPackage kps ->
  createWelcome g kps rs ri rh rg = (g1, Ok (w, raw)) -> did (CallWelcome g kps rs ri rh rg) -> sends_vouched did g kps rs w.
Proof.
  intros HC L Hk H Hd. pose proof (obtained_sane _ (lawful_obtained _ L)) as Sa.
  destruct (createWelcome_parts _ _ _ _ _ _ _ _ _ HC (proj1 (sane_consistent _ Sa)) H) as (Hne & _ & e & sig & tag & joiner & X).
  destruct X as [Ht (tbs & Htbs & Hsig) (th & confirmed & Hth & Hconf & Hctx & _) (nh & Hnh & Hj) Hpsk Hep Htag _ _ (rt & gi & egi & secrets & Hrt & Hgi & Hegi & _ & Hw)].
  pose proof (sane_shape _ Sa) as Ws. pose proof (vapply_shape _ _ _ _ Ws Ht) as Ws'.
  destruct (shaped_hash _ _ _ Ws' Hth) as (k' & Sh' & Eth).
  set (ps := map (fun k => (PAdd k, gr_myLeafIndex g)) kps).
  assert (P : map fst ps = map PAdd kps) by (unfold ps; now rewrite map_map).
  assert (AP : SpecCommitTree.after_proposals (gr_value g) ps (ed_tree e)). { apply CommitTreeFacts.vapply_one_by_one; [exact Ws|]. rewrite P, adds_only, <- (adds_only _ _ [gr_myLeafIndex g]). exact Ht. }
  change (welcomeContent g kps) with (member_content g (additions kps)) in *. change wireFormatMLSPrivateMessage with 2 in *.
  destruct (sign_labelled _ _ _ _ _ _ Hsig) as (m & Hm).
  assert (A : adds_to g kps rs k' (ed_tree e) sig).
  { splits; auto. apply sign_only in Hsig. rewrite (writes_framedContentTBS _ _ _ _ Htbs) in Hsig. exact Hsig. }
  split.
  { eapply vouch; [exact Hd|split; assumption|exists g1, w, raw; splits; auto|]. cbn [signedBytes]. rewrite Htbs. exact Hm. }
  apply confirmed_only in Hconf. apply size_only in Hnh. subst nh. apply joiner_only in Hj. apply nopsk_only in Hpsk. apply epoch_only in Hep. apply tag_only in Htag.
  assert (Ei : mkGroupInfo (ed_context e) [mkExtension 2 rt] tag (gr_myLeafIndex g) [] = new_info g kps k' (ed_tree e) sig).
  { unfold new_info. cbv zeta. rewrite (writes_ratchetTree _ _ Hrt). subst th confirmed. change (nextContext ?a ?b ?c) with (next_context a b c) in *.
    rewrite Hctx, Hpsk in *. rewrite Hep in Htag. rewrite Hj in *. rewrite Htag. reflexivity. }
  rewrite Ei in Hgi. pose proof Hgi as Hgi'. apply info_sign_rfc in Hgi as (infoSig & _ & ->). apply info_rfc in Hegi. cbn [gi_groupContext] in Hegi.
  exists k', (ed_tree e), sig, joiner, (ed_psk e), infoSig. split; [exact A|]. cbv zeta. split.
  { subst w. cbn [w_encryptedGroupInfo w_cipherSuite]. exact Hegi. }
  unfold groupInfoSign in Hgi'. apply rbind_ok in Hgi' as (tbs' & Ht' & Hgi'). apply rbind_ok in Hgi' as (s' & Hs' & _). apply sign_labelled in Hs' as (m' & Hm').
  eapply vouch; [exact Hd|split; assumption|exists g1, w, raw; splits; auto; right; exists k', (ed_tree e), sig; split; [exact A|reflexivity]|].
  cbn [signedBytes]. rewrite Ht'. exact Hm'.
Qed.
Theorem package_vouched (did : call -> Prop) cs cred t0 t1 r1 r2 r3 r4 r5 kpp : u16 cs -> wf_credential cred ->
  generateKeyPairPackage cs cred t0 t1 r1 r2 r3 r4 r5 = Ok kpp -> did (CallKeyPackage cs cred t0 t1 r1 r2 r3 r4 r5) ->
  vouched did (kpp_signatureKey kpp) (SignKeyPackage (kpp_public kpp)).
Proof.
  intros Hu Hc H Hd. pose proof H as H0. apply generated_inv in H as (d & ip & iv & ep & ev & sp & sv & tbs & s1 & tbs2 & s2 & _ & _ & _ & _ & H).
  cbv zeta in H. destruct H as (_ & _ & Ht & Hs & E). apply sign_labelled in Hs as (m & Hm).
  eapply (vouch did _ _ _ m Hd); [split; assumption|exists kpp; splits; auto|]. subst kpp. cbn [signedBytes kpp_public].
  unfold putKeyPackageTBS in *. cbn [kp_version kp_cipherSuite kp_initKey kp_leafNode kp_extensions] in *. rewrite Ht. exact Hm.
Qed.
End WithCrypto.
