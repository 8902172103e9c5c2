(** CreateGroup does not look at the key package; those who are invited do. *)
From Verif Require Import TypesFacts CommitTreeFacts TreeOpFacts TreeFacts RemovedFacts ObtainedFacts GroupFacts FrameFacts AgreementFacts CrashFacts HoldFacts CodecFacts WelcomeFacts EpochFacts CreateFacts WireSpecFacts SpecCodecFacts JoinFacts IntegrityFacts OutcomeFacts.
From Verif Require Export WholeFacts HistoryFacts SpecFound.

Lemma joined_keeps_leaf t l t' : SpecCommitTree.joined t l t' -> forall li x, leaf_at t li = Some x -> leaf_at t' li = Some x.
Proof.
  intros (k & t0 & j & [Hf _] & S & A & G) li x H. destruct (added_leaf k t0 t' j l S A) as [_ H2].
  assert (H0 : leaf_at t0 li = Some x).
  { destruct G as [->|[-> _]]; [exact H|]. unfold leaf_at, grown in *. destruct (nth_error t (N.to_nat (2 * li))) as [y|] eqn:E; [|discriminate].
    rewrite nth_error_app1; [now rewrite E|]. apply nth_error_Some. congruence. }
  rewrite H2; [exact H0|]. intros ->. congruence.
Qed.
Lemma all_joined_keep_leaf ls : forall t t', one_by_one SpecCommitTree.joined t ls t' -> forall li x, leaf_at t li = Some x -> leaf_at t' li = Some x.
Proof. intros t t' H. induction H as [|t0 x t1 ls t2 J _ IH]; intros li y Hl; [exact Hl|]. apply IH. eapply joined_keeps_leaf; eauto. Qed.

Section WithCrypto.
Context {C : crypto}.

Theorem joined_inviters_tree g kps rs ri rh rg g1 w raw kpp now j : crypto_ok C -> lawful g -> ends_with_member (gr_value g) -> Forall wf_keyPackage kps ->
  createWelcome g kps rs ri rh rg = (g1, Ok (w, raw)) -> NoDup (welcomeNewMembers w) -> In (kpp_public kpp) kps ->
  holds_private_keys kpp -> kp_cipherSuite (kpp_public kpp) = gc_cipherSuite (gr_context g) -> later_than_1970 now ->
  groupFromWelcome w kpp now = Ok j -> usable (gr_context g) (gr_value g) now.
Proof.
  intros HC L En Wk H Nd Hin (d & Hd & Hik & _) Hkcs Hnow J. pose proof (obtained_sane _ (lawful_obtained _ L)) as Sa.
  destruct (createWelcome_parts _ _ _ _ _ _ _ _ _ HC (proj1 (sane_consistent _ Sa)) H) as (Hne & _ & e & sig & tag & joiner & X).
  destruct X as [Ht _ (th & confirmed & Hth & _ & Hctx & _) _ Hpsk _ _ _ _ (rt & gi & egi & secrets & Hrt & Hgi & Hegi & Hsec & ->)].
  pose proof (sane_shape _ Sa) as Ws. pose proof (vapply_shape _ _ _ _ Ws Ht) as Ws'.
  set (ps := map (fun k => (PAdd k, gr_myLeafIndex g)) kps).
  assert (P1 : map fst ps = map PAdd kps) by (unfold ps; now rewrite map_map).
  assert (P2 : additionsOf ps = map kp_leafNode kps) by (unfold ps, additionsOf; clear; induction kps as [|k kps IH]; cbn; congruence).
  assert (P3 : updatesOf ps = [] /\ removalsOf ps = []) by (unfold ps, updatesOf, removalsOf; clear; induction kps as [|k kps IH]; cbn; auto).
  destruct P3 as [P3 P4].
  assert (AP : after_proposals (gr_value g) ps (ed_tree e)). { apply vapply_one_by_one; [exact Ws|]. rewrite P1, adds_only, <- (adds_only _ _ [gr_myLeafIndex g]). exact Ht. }
  pose proof (ends_after _ _ _ AP En) as En'.
  destruct AP as (t1 & t2 & A1 & A2 & A3). rewrite P3 in A1. rewrite P4 in A2. rewrite P2 in A3. inversion A1; subst t1. inversion A2; subst t2.
  assert (Wt : wf_nodes (ed_tree e)).
  { eapply CreateFacts.joined_wf; [|apply (lawful_holds _ L)|exact A3].
    apply Forall_forall. intros l Hl. apply in_map_iff in Hl. destruct Hl as (k & <- & Hi). rewrite Forall_forall in Wk. apply Wk in Hi. apply Hi. }
  assert (Htree : unmarshal getRatchetTree rt = Ok (ed_tree e)) by exact (ratchetTree_roundtrip _ _ (whole_wf _ Ws' Wt En') Hrt).
  rewrite Hkcs in Hd. unfold welcomeNewMembers in Nd. cbn [w_secrets] in Nd.
  destruct (secret_opened _ d (mkGroupSecrets joiner None []) egi kps (kpp_public kpp) (kpp_initKey kpp) Hd ltac:(constructor) Hik rh secrets Hsec Nd Hin) as (ref & Href & Hdec).
  unfold groupInfoSign in Hgi. apply rbind_ok in Hgi. destruct Hgi as (tbs & Htbs & Hgi). apply rbind_ok in Hgi. destruct Hgi as (gsig & Hgsig & Hgi). apply Ok_inj in Hgi.
  cbn [gi_groupContext gi_extensions gi_confirmationTag gi_signer] in Hgi, Hgsig.
  assert (Ecs : gc_cipherSuite (ed_context e) = gc_cipherSuite (gr_context g)) by (rewrite Hctx; reflexivity).
  assert (Egid : gc_groupID (ed_context e) = gc_groupID (gr_context g)) by (rewrite Hctx; reflexivity).
  assert (Hgw : wf_groupInfo gi).
  { subst gi. unfold wf_groupInfo. cbn [gi_groupContext gi_extensions gi_signer]. splits.
    - destruct (lawful_holds _ L) as [_ (V1 & V2 & V3 & V4) _ _]. rewrite Hctx. unfold wf_groupContext, nextContext. cbn [gc_version gc_cipherSuite gc_epoch gc_extensions]. splits; auto. unfold u64. apply N.mod_lt. discriminate.
    - constructor; [|constructor]. reflexivity.
    - apply (sane_index _ Sa). }
  assert (Hgic : gi_groupContext gi = ed_context e) by (subst gi; reflexivity).
  assert (Hopen : decryptGroupInfo (mkWelcome (gc_cipherSuite (gr_context g)) secrets egi) joiner (ed_psk e) = Ok gi).
  { apply info_opened; auto. now rewrite Hgic. }
  apply groupFromWelcome_inv in J. destruct J as (ref' & s' & Eref' & Es' & _ & J).
  rewrite Href in Eref'. apply Ok_inj in Eref'. subst ref'. rewrite Hdec in Es'. apply Ok_inj in Es'. subst s'. apply groupFromSecrets_inv in J.
  destruct J as (psk & gi' & raw' & tj & signer & epoch & init & interim & me & priv & Epsk & Egi & Eraw & Et & _ & _ & _ & _ & Ev & _).
  cbn [w_cipherSuite gs_psks gs_joinerSecret] in Epsk, Egi. rewrite Hpsk in Epsk. apply Ok_inj in Epsk. subst psk.
  rewrite Hopen in Egi. apply Ok_inj in Egi. subst gi'.
  assert (Er : Some rt = Some raw'). { rewrite <- Eraw. subst gi. reflexivity. }
  injection Er as <-. rewrite Htree in Et. apply Ok_inj in Et. subst tj.
  destruct (shaped_hash _ _ _ Ws' Hth) as (k' & Sh' & _).
  destruct (verifyIntegrity_full_most k' (ed_tree e) _ now (shaped_full _ _ Sh') (wf_nodes_lifetimes _ Wt) Hnow Ev) as (_ & _ & _ & _ & Hl & _).
  intros li l Hleaf. apply (all_joined_keep_leaf _ _ _ A3) in Hleaf. apply Hl in Hleaf. rewrite Hgic in Hleaf. unfold leaf_checked in *. rewrite Ecs, Egid in Hleaf. exact Hleaf.
Qed.

Theorem useless_groups gid kpp rnd : crypto_ok C -> wf_keyPackage (kpp_public kpp) -> known_suite (kp_cipherSuite (kpp_public kpp)) ->
  lenN (enc_leafNode (kp_leafNode (kpp_public kpp))) < 2 ^ 26 ->
  exists g, createGroup gid kpp rnd = Ok g /\
  forall kps rs ri rh rg g1 w raw invited now j, Forall wf_keyPackage kps -> createWelcome g kps rs ri rh rg = (g1, Ok (w, raw)) -> NoDup (welcomeNewMembers w) ->
    In (kpp_public invited) kps -> holds_private_keys invited -> kp_cipherSuite (kpp_public invited) = gc_cipherSuite (gr_context g) -> later_than_1970 now ->
    ~ leaf_checked (gr_context g) now 0 (kp_leafNode (kpp_public kpp)) -> groupFromWelcome w invited now <> Ok j.
Proof.
  intros HC Wk Kn Hz. destruct (group_total HC gid kpp rnd Kn) as (g & H); [apply Wk|exact Hz|]. exists g. split; [exact H|].
  intros kps rs ri rh rg g1 w raw invited now j Wks Hw Nd Hin Hp Hc Hnow Hn J. apply Hn.
  refine (joined_inviters_tree _ _ _ _ _ _ _ _ _ _ _ _ HC _ _ Wks Hw Nd Hin Hp Hc Hnow J 0 _ _).
  - eapply lawful_created; eauto.
  - eapply created_ends; eauto.
  - apply created_rfc in H. destruct H as [-> _]. reflexivity.
Qed.

Theorem useful_groups gid kpp rnd g kps rs ri rh rg g1 w raw invited now : crypto_ok C -> founder kpp -> createGroup gid kpp rnd = Ok g ->
  may_join g kps -> lenN rg = 4 -> createWelcome g kps rs ri rh rg = (g1, Ok (w, raw)) -> NoDup (welcomeNewMembers w) ->
  In (kpp_public invited) kps -> holds_private_keys invited -> later_than_1970 now -> all_current g kps now ->
  exists j, groupFromWelcome w invited now = Ok j.
Proof.
  intros HC F H Hm Hg Hw Nd Hin Hp Hnow Hcur. destruct (founder_in_order _ _ _ _ F H) as (Ho & _).
  destruct (welcome_agreement _ _ _ _ _ _ _ _ _ _ _ HC Ho Hm Hg Hw Nd Hin Hp Hnow Hcur) as (j & J & _). now exists j.
Qed.
End WithCrypto.
