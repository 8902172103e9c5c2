(** The epoch that CreateWelcome starts, for the members of the group. *)
From Verif Require Export DeliveryFacts HeapFacts TreeOpFacts.

Section WithCrypto.
Context {C : crypto}.

(** What an epoch is made of *)
Record epochData := mkEpochData {
  ed_tree : ratchetTree;
  ed_context : groupContext;
  ed_interim : bytes;
  ed_psk : bytes;
  ed_epoch : bytes;
  ed_init : bytes }.

Definition in_epoch (g : group) (e : epochData) : Prop :=
  gr_value g = ed_tree e /\ gr_context g = ed_context e /\ gr_interimTranscriptHash g = ed_interim e /\
  gr_pskSecret g = ed_psk e /\ gr_epochSecret g = ed_epoch e /\ gr_initSecret g = ed_init e.

Lemma in_epoch_agree g1 g2 e : in_epoch g1 e -> in_epoch g2 e -> agree g1 g2.
Proof. intros (A1 & A2 & A3 & A4 & A5 & A6) (B1 & B2 & B3 & B4 & B5 & B6). unfold agree. splits; congruence. Qed.

Definition welcomeCommit (kps : list keyPackage) : commit := mkCommit (map (fun k => PorProposal (PAdd k)) kps) None.
Definition welcomeContent (g : group) (kps : list keyPackage) : framedContent := ownContent g (BCommit (welcomeCommit kps)).

(** What CreateWelcome computes on the way *)
Record welcoming (g : group) (kps : list keyPackage) (rs ri : bytes) (rh : list bytes) (rg : bytes) (w : welcome) (raw : bytes)
    (e : epochData) (sg tag joiner : bytes) : Prop := {
  wm_tree : vapply (gr_value g) (map PAdd kps) [gr_myLeafIndex g] = Ok (ed_tree e);
  wm_sign : exists tbs, putFramedContentTBS wireFormatMLSPrivateMessage (welcomeContent g kps) (gr_context g) = Ok tbs /\
      signWithLabel (gc_cipherSuite (gr_context g)) (gr_signaturePriv g) rs (str "FramedContentTBS") tbs = Ok sg;
  wm_context : exists th confirmed, computeRootTreeHash (gc_cipherSuite (gr_context g)) (ed_tree e) = Ok th /\
      confirmedTranscriptHash (gc_cipherSuite (gr_context g)) wireFormatMLSPrivateMessage (welcomeContent g kps) sg (gr_interimTranscriptHash g) = Ok confirmed /\
      ed_context e = nextContext (gr_context g) th confirmed /\
      nextInterimTranscriptHash (gc_cipherSuite (gr_context g)) confirmed tag = Ok (ed_interim e);
  wm_joiner : exists nh, extractSize (gc_cipherSuite (gr_context g)) = Ok nh /\
      extractJoinerSecret (ed_context e) (gr_initSecret g) (zeros nh) = Ok joiner;
  wm_psk : extractPSKSecret (gc_cipherSuite (gr_context g)) [] [] = Ok (ed_psk e);
  wm_epoch : extractEpochSecret (ed_context e) joiner (ed_psk e) = Ok (ed_epoch e);
  wm_tag : signConfirmationTag (ed_context e) (ed_epoch e) = Ok tag;
  wm_init : deriveSecret (gc_cipherSuite (gr_context g)) (ed_epoch e) secretLabelInit = Ok (ed_init e);
  wm_message : groupEncryptPrivateMessage g (welcomeContent g kps)
                 (mkPrivateMessageContent (BCommit (welcomeCommit kps)) (mkAuthData sg tag)) rg = Ok raw;
  wm_welcome : exists rawTree gi egi secrets,
      putRatchetTree (ed_tree e) = Ok rawTree /\
      groupInfoSign (gr_signaturePriv g) ri (mkGroupInfo (ed_context e) [mkExtension 2 rawTree] tag (gr_myLeafIndex g) []) = Ok gi /\
      groupInfoEncrypt gi joiner (ed_psk e) = Ok egi /\
      encryptSecretsFor (gc_cipherSuite (gr_context g)) (mkGroupSecrets joiner None []) egi kps rh = Ok secrets /\
      w = mkWelcome (gc_cipherSuite (gr_context g)) secrets egi
}.

Lemma deriveSecret_total cs d s l : cipherSuiteDescriptions cs = Some d -> small l -> exists r, deriveSecret cs s l = Ok r.
Proof.
  intros Hd Hl. unfold deriveSecret. rewrite (extractSize_total cs d Hd). cbn [rbind].
  eexists. apply (expand_total cs d); auto; [reflexivity|apply secretSize_small].
Qed.

Lemma signMAC_len cs key m r : crypto_ok C -> signMAC cs key m = Ok r -> lenN r <= 64.
Proof.
  intros HC H. unfold signMAC in H. rinv. subst. rewrite (ok_hmac C HC). destruct (sd_hash v); cbn; lia.
Qed.

Lemma nextInterim_total cs d c tag : cipherSuiteDescriptions cs = Some d -> lenN tag <= 64 -> exists r, nextInterimTranscriptHash cs c tag = Ok r.
Proof.
  intros Hd Ht. unfold nextInterimTranscriptHash. destruct (writeOpaqueVec_bound tag) as (p & _ & E).
  { change (2 ^ 30) with 1073741824. lia. }
  rewrite E. cbn [rbind]. unfold hashSum. rewrite (proj2 (describe_ok _ _) Hd). cbn. eauto.
Qed.

Lemma vapply_adds_senders t kps s1 s2 : vapply t (map PAdd kps) s1 = vapply t (map PAdd kps) s2.
Proof.
  unfold vapply. f_equal. rewrite map_length. generalize (seq 0 (length kps)). intros l. revert t l.
  induction kps as [|k kps IH]; intros t [|i l]; cbn; auto.
Qed.

Lemma applyH_value_ok h t props senders h' t' : proper h t -> applyH h t props senders = Ok (h', t') ->
  vapply (deref h t) props senders = Ok (deref h' t') /\ proper h' t'.
Proof.
  intros Pr H. destruct (applyH_value h t props senders Pr) as [V Q]. split; [|eauto]. rewrite H in V. cbn in V. symmetry. exact V.
Qed.

Lemma applyH_of_value h t props senders v : proper h t -> vapply (deref h t) props senders = Ok v ->
  exists h' t', applyH h t props senders = Ok (h', t') /\ deref h' t' = v /\ proper h' t'.
Proof.
  intros Pr H. destruct (applyH_value h t props senders Pr) as [V Q]. rewrite H in V.
  destruct (applyH h t props senders) as [[h' t']| | |]; try discriminate V. cbn in V. unfold value in V. cbn in V. apply Ok_inj in V.
  exists h', t'. splits; auto.
Qed.

Lemma createWelcome_inv g kps rs ri rh rg g1 r : createWelcome g kps rs ri rh rg = (g1, Ok r) ->
  kps <> [] /\ exists h t, applyH (gr_heap g) (gr_tree g) (map PAdd kps) [gr_myLeafIndex g] = Ok (h, t) /\ g1 = withHeap g h /\
    finishWelcome g kps h t rs ri rh rg = Ok r.
Proof.
  unfold createWelcome. destruct kps as [|k0 kps0]; [discriminate|].
  destruct (applyH _ _ _ _) as [[h t]| | |]; try discriminate. intros H.
  assert (g1 = withHeap g h) by congruence.
  assert (finishWelcome g (k0 :: kps0) h t rs ri rh rg = Ok r) by congruence.
  split; [discriminate|]. eauto.
Qed.

Lemma signPrivate_inv cs key rnd content ctx pc : signPrivateMessageContent cs key rnd content ctx = Ok pc ->
  exists tbs sg, putFramedContentTBS wireFormatMLSPrivateMessage content ctx = Ok tbs /\
    signWithLabel cs key rnd (str "FramedContentTBS") tbs = Ok sg /\
    pc = mkPrivateMessageContent (fc_body content) (mkAuthData sg []).
Proof.
  unfold signPrivateMessageContent, signAuthenticatedContent. intros Hpc.
  apply rbind_ok in Hpc. destruct Hpc as (ac & Hac & Hpc). apply Ok_inj in Hpc. subst pc.
  apply rbind_ok in Hac. destruct Hac as (tbs & Htbs & Hac).
  apply rbind_ok in Hac. destruct Hac as (sg & Hsg & Hac). apply Ok_inj in Hac. subst ac. eauto 10.
Qed.

Lemma finishWelcome_inv g kps h t rs ri rh rg w raw : finishWelcome g kps h t rs ri rh rg = Ok (w, raw) ->
  exists th nh psk pc confirmed joiner es tag rawTree gi egi secrets,
    computeRootTreeHash (gc_cipherSuite (gr_context g)) (deref h t) = Ok th /\
    extractSize (gc_cipherSuite (gr_context g)) = Ok nh /\
    extractPSKSecret (gc_cipherSuite (gr_context g)) [] [] = Ok psk /\
    signPrivateMessageContent (gc_cipherSuite (gr_context g)) (gr_signaturePriv g) rs (welcomeContent g kps) (gr_context g) = Ok pc /\
    confirmedTranscriptHash (gc_cipherSuite (gr_context g)) wireFormatMLSPrivateMessage (welcomeContent g kps) (ad_signature (pmc_auth pc)) (gr_interimTranscriptHash g) = Ok confirmed /\
    extractJoinerSecret (nextContext (gr_context g) th confirmed) (gr_initSecret g) (zeros nh) = Ok joiner /\
    extractEpochSecret (nextContext (gr_context g) th confirmed) joiner psk = Ok es /\
    signConfirmationTag (nextContext (gr_context g) th confirmed) es = Ok tag /\
    putRatchetTree (deref h t) = Ok rawTree /\
    groupInfoSign (gr_signaturePriv g) ri (mkGroupInfo (nextContext (gr_context g) th confirmed) [mkExtension 2 rawTree] tag (gr_myLeafIndex g) []) = Ok gi /\
    groupInfoEncrypt gi joiner psk = Ok egi /\
    encryptSecretsFor (gc_cipherSuite (gr_context g)) (mkGroupSecrets joiner None []) egi kps rh = Ok secrets /\
    groupEncryptPrivateMessage g (welcomeContent g kps) (mkPrivateMessageContent (pmc_body pc) (mkAuthData (ad_signature (pmc_auth pc)) tag)) rg = Ok raw /\
    w = mkWelcome (gc_cipherSuite (gr_context g)) secrets egi.
Proof.
  unfold finishWelcome. cbv zeta. intros H.
  apply rbind_ok in H. destruct H as (th & Hth & H).
  apply rbind_ok in H. destruct H as (nh & Hnh & H).
  apply rbind_ok in H. destruct H as (psk & Hpsk & H).
  apply rbind_ok in H. destruct H as (pc & Hpc & H).
  apply rbind_ok in H. destruct H as (confirmed & Hconf & H).
  apply rbind_ok in H. destruct H as (joiner & Hj & H).
  apply rbind_ok in H. destruct H as (es & Hes & H).
  apply rbind_ok in H. destruct H as (tag & Htag & H).
  apply rbind_ok in H. destruct H as (rawTree & Hrt & H).
  apply rbind_ok in H. destruct H as (gi & Hgi & H).
  apply rbind_ok in H. destruct H as (egi & Hegi & H).
  apply rbind_ok in H. destruct H as (secrets & Hsec & H).
  apply rbind_ok in H. destruct H as (raw' & Hraw & H). apply Ok_inj in H. apply pair_equal_spec in H. destruct H as [E1 E2]. subst raw'.
  exists th, nh, psk, pc, confirmed, joiner, es, tag, rawTree, gi, egi, secrets. splits; assumption || (symmetry; assumption).
Qed.

Lemma createWelcome_parts g kps rs ri rh rg g1 w raw : crypto_ok C -> proper (gr_heap g) (gr_tree g) ->
  createWelcome g kps rs ri rh rg = (g1, Ok (w, raw)) ->
  kps <> [] /\ (exists h t, applyH (gr_heap g) (gr_tree g) (map PAdd kps) [gr_myLeafIndex g] = Ok (h, t) /\ g1 = withHeap g h) /\
  exists e sg tag joiner, welcoming g kps rs ri rh rg w raw e sg tag joiner.
Proof.
  intros HC Pr H. apply createWelcome_inv in H. destruct H as (Hne & h & t & Ea & Eg & H). split; [assumption|]. split; [eauto|].
  destruct (applyH_value_ok _ _ _ _ _ _ Pr Ea) as [Hv _].
  apply finishWelcome_inv in H.
  destruct H as (th & nh & psk & pc & confirmed & joiner & es & tag & rawTree & gi & egi & secrets & Hth & Hnh & Hpsk & Hpc & Hconf & Hj & Hes & Htag & Hrt & Hgi & Hegi & Hsec & Hraw & Hw).
  apply signPrivate_inv in Hpc. destruct Hpc as (tbs & sg & Htbs & Hsg & Epc). subst pc. cbn [pmc_auth ad_signature pmc_body] in *.
  destruct (extractSize_some _ _ Hnh) as (d & Hd & Enh).
  destruct (deriveSecret_total _ d es secretLabelInit Hd) as (ini & Hini); [reflexivity|].
  destruct (nextInterim_total _ d confirmed tag Hd) as (interim & Hint).
  { unfold signConfirmationTag in Htag. apply rbind_ok in Htag. destruct Htag as (ck & _ & Htag). eapply signMAC_len; eauto. }
  exists (mkEpochData (deref h t) (nextContext (gr_context g) th confirmed) interim psk es ini), sg, tag, joiner.
  constructor; cbn [ed_tree ed_context ed_interim ed_psk ed_epoch ed_init].
  - exact Hv.
  - exists tbs. split; assumption.
  - exists th, confirmed. splits; auto.
  - exists nh. split; assumption.
  - exact Hpsk.
  - exact Hes.
  - exact Htag.
  - exact Hini.
  - exact Hraw.
  - exists rawTree, gi, egi, secrets. splits; assumption.
Qed.

Lemma keyPackageVerify_addable k ctx : addable ctx k -> keyPackageVerify k ctx = Ok tt.
Proof.
  intros (Hv & Hc & Hs & Hk & Hsig). unfold keyPackageVerify.
  rewrite Hv, N.eqb_refl, Hc, N.eqb_refl. change leafNodeSourceKeyPackage with 1. rewrite Hs. cbn [guard rbind N.eqb Pos.eqb].
  rewrite (proj2 (keyPackageVerifySignature_spec k) Hsig). cbn [guard rbind].
  rewrite (proj2 (bytes_eqb_false _ _) Hk). reflexivity.
Qed.

Lemma resolve_adds kps li pending :
  resolveProposals (map (fun k => PorProposal (PAdd k)) kps) li pending = Ok (map (fun k => (PAdd k, li)) kps).
Proof. induction kps as [|k kps IH]; cbn; [reflexivity|]. rewrite IH. reflexivity. Qed.

Lemma rule_adds kps li : NoDup (map (fun k => ln_signatureKey (kp_leafNode k)) kps) ->
  verifyProposalList (map PAdd kps) (map (fun _ => li) kps) li = Ok tt.
Proof.
  intros Nd. pose proof (verifyProposalList_ok (map (fun k => (PAdd k, li)) kps) li) as H.
  rewrite !map_map in H. cbn [fst snd] in H.
  assert (Ek : addedKeys (map (fun k => (PAdd k, li)) kps) = map (fun k => ln_signatureKey (kp_leafNode k)) kps).
  { clear. unfold addedKeys. induction kps; cbn; [reflexivity|now rewrite IHkps]. }
  assert (Ec : changedLeaves (map (fun k => (PAdd k, li)) kps) = []).
  { clear. unfold changedLeaves. induction kps; cbn; auto. }
  assert (Ep : pskIds (map (fun k => (PAdd k, li)) kps) = []).
  { clear. unfold pskIds. induction kps; cbn; auto. }
  assert (Ee : extensionProposals (map (fun k => (PAdd k, li)) kps) = []).
  { clear. unfold extensionProposals. induction kps; cbn; auto. }
  apply (proj2 (H ltac:(rewrite Ep; constructor))). split; [|unfold psk_ids_encodable; rewrite Ep; constructor].
  unfold proposal_rule. rewrite Ek, Ec, Ep, Ee. splits; auto; try constructor.
  - intros r s Hin. apply in_map_iff in Hin. destruct Hin as (? & E & _). discriminate.
  - intros r s Hin. apply in_map_iff in Hin. destruct Hin as (? & E & _). discriminate.
Qed.

Lemma checkCommit_adds g li kps : kps <> [] -> Forall (addable (gr_context g)) kps ->
  NoDup (map (fun k => ln_signatureKey (kp_leafNode k)) kps) ->
  checkCommit g li (welcomeCommit kps) = Ok (map PAdd kps, map (fun _ => li) kps).
Proof.
  intros Hne Ha Nd. unfold checkCommit, welcomeCommit. cbn [c_proposals c_path]. rewrite resolve_adds. cbn [rbind]. rewrite !map_map. cbn [fst snd].
  change (map (fun x => PAdd x) kps) with (map PAdd kps).
  rewrite rule_adds by assumption. cbn [rbind].
  assert (E : foldM (fun (_ : unit) p => match p with PAdd k => keyPackageVerify k (gr_context g) | _ => Ok tt end) tt (map PAdd kps) = Ok tt).
  { clear Hne Nd. induction Ha as [|k kps Hk _ IH]; cbn; [reflexivity|]. rewrite (keyPackageVerify_addable _ _ Hk). cbn. exact IH. }
  rewrite E. cbn [rbind].
  assert (En : proposalListNeedsPath (map PAdd kps) = false).
  { destruct (proposalListNeedsPath (map PAdd kps)) eqn:En; [|reflexivity]. exfalso. apply needsPath_spec in En. destruct En as [En|(p & Hin & Hp)].
    - destruct kps; [congruence|discriminate].
    - apply in_map_iff in Hin. destruct Hin as (k & <- & _). exact Hp. }
  rewrite En. reflexivity.
Qed.

Lemma carryPriv_ok tl nl priv : length priv = tl -> exists p, carryPriv tl nl priv = Ok p /\ length p = nl.
Proof.
  intros H. unfold carryPriv. destruct (Nat.ltb_spec (length priv) (Nat.min tl nl)); [lia|]. eexists. split; [reflexivity|].
  rewrite app_length, firstn_length, repeat_length. lia.
Qed.

(** A member in the state of the one that calls CreateWelcome processes the
    commit. *)
Lemma commit_processed g kps rs ri rh rg w raw e sg tag joiner g2 now : crypto_ok C ->
  u64 (gc_epoch (gr_context g)) -> u32 (gr_myLeafIndex g) -> lenN rg = 4 -> can_sign g ->
  kps <> [] -> Forall wf_keyPackage kps -> Forall (addable (gr_context g)) kps ->
  NoDup (map (fun k => ln_signatureKey (kp_leafNode k)) kps) ->
  welcoming g kps rs ri rh rg w raw e sg tag joiner ->
  agree g g2 -> consistent g2 ->
  exists g2', unmarshalAndProcessMessage g2 raw now = (g2', Ok None) /\ in_epoch g2' e /\ consistent g2' /\
    gr_myLeafIndex g2' = gr_myLeafIndex g2 /\ gr_signaturePriv g2' = gr_signaturePriv g2 /\ gr_pending g2' = [].
Proof.
  intros HC He Hli Hg (l & alg & Hl & Halg & Hp) Hne Hwf Hadd Nd W Hag (Pr2 & Hlen2).
  destruct (cipherSuiteDescriptions (gc_cipherSuite (gr_context g))) as [d|] eqn:Hd; [|discriminate]. cbn in Halg. injection Halg as <-.
  destruct W as [Wt (tbs & Htbs & Hsg) (th & confirmed & Hth & Hconf & Hctx & Hint) (nh & Hnh & Hj) Hpsk Hes Htag Hini Hraw _].
  pose proof (signed_verifies _ _ _ _ _ _ _ _ Hd Hp Hsg) as Hv.
  destruct Hag as (A1 & A2 & A3 & A4 & A5 & A6).
  destruct (private_delivered g g2 (BCommit (welcomeCommit kps)) (mkAuthData sg tag) rg raw l tbs d HC He Hli) as (m & Hm & Ho); auto.
  { cbn. unfold wf_commit, welcomeCommit. cbn [c_proposals c_path]. split; [|exact I]. apply Forall_map. exact Hwf. }
  { left. reflexivity. }
  { split; auto. }
  unfold unmarshalAndProcessMessage. rewrite Hm. unfold processPrivateMessage. rewrite Ho. cbn [ac_content ownContent fc_body].
  unfold processCommit. cbn [ac_content ownContent fc_body fc_sender sender_leafIndex].
  rewrite checkCommit_adds by (rewrite ?A1; auto).
  destruct (applyH_of_value (gr_heap g2) (gr_tree g2) (map PAdd kps) (map (fun _ => gr_myLeafIndex g) kps) (ed_tree e) Pr2) as (h' & t' & Ha & Hd' & Pr').
  { change (deref (gr_heap g2) (gr_tree g2)) with (gr_value g2). rewrite A2, <- Wt. apply vapply_adds_senders. }
  rewrite Ha. unfold finishCommit. cbn [welcomeCommit c_path].
  destruct (carryPriv_ok (length (gr_tree g2)) (length t') (gr_privTree g2) Hlen2) as (priv & Hpriv & Hplen).
  rewrite Hpriv. cbn [rbind]. rewrite A1, Hnh. cbn [rbind]. rewrite Hd', Hth. cbn [rbind].
  unfold nextEpoch. rewrite A1, A3, A6. cbn [ac_wireFormat ac_content ac_auth ad_signature ad_confirmationTag].
  unfold welcomeContent in Hconf. unfold ownContent in *. rewrite Hconf. cbn [rbind]. rewrite Hint. cbn [rbind]. rewrite <- Hctx.
  rewrite Hj. cbn [rbind]. rewrite Hpsk. cbn [rbind]. rewrite Hes. cbn [rbind]. rewrite Hini. cbn [rbind noData fst snd rmap].
  eexists. split; [reflexivity|]. cbn. splits; auto.
  - unfold in_epoch, gr_value. cbn. splits; auto.
  - split; cbn; auto.
Qed.
End WithCrypto.
