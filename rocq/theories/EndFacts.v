(** A committed reinit proposal does not end a group. *)
From Verif Require Import OutcomeFacts CreateFacts CommitTreeFacts.
From Verif Require Export SpecCreate SpecGroup SpecObtained.

Section WithCrypto.
Context {C : crypto}.

Lemma reinit_alone ps committer r s : verifyProposalList (map fst ps) (map snd ps) committer = Ok tt -> In (PReInit r, s) ps -> ps = [(PReInit r, s)].
Proof.
  unfold verifyProposalList. rewrite rmap_fst_combine. unfold lenN. rewrite !map_length, N.eqb_refl. cbn [negb]. fold (lenN ps).
  pose proof (foldM_verifyProposal (lenN ps) committer ps (mkSeen [] [] [] false)) as H. intros Hv Hin.
  assert (R : rule_from (lenN ps) committer (mkSeen [] [] [] false) ps).
  { rewrite <- H. destruct (foldM _ _ ps); cbn in *; congruence. }
  destruct R as (_ & _ & _ & _ & E & _). specialize (E r s Hin). unfold lenN in E. destruct ps as [|q [|q' ps]]; [destruct Hin| |cbn in E; lia].
  destruct Hin as [->|[]]. reflexivity.
Qed.
Lemma reinit_only g raw now ac c g' li ps r s : obtained g -> accepts_commit g raw now ac c g' ->
  fc_sender (ac_content ac) = SMember li -> commits g li c ps -> In (PReInit r, s) ps ->
  ps = [(PReInit r, s)] /\ (c_path c = None -> gr_value g' = gr_value g) /\
  gc_groupID (gr_context g') = gc_groupID (gr_context g) /\ gc_version (gr_context g') = gc_version (gr_context g) /\
  gc_cipherSuite (gr_context g') = gc_cipherSuite (gr_context g) /\ gc_extensions (gr_context g') = gc_extensions (gr_context g) /\
  gr_myLeafIndex g' = gr_myLeafIndex g /\ gr_signaturePriv g' = gr_signaturePriv g.
Proof.
  intros O A Hs Hc Hin. assert (He : u64 (gc_epoch (gr_context g))) by apply (obtained_sane _ O).
  assert (Hps : ps = [(PReInit r, s)]).
  { pose proof A as (_ & Hb & _). pose proof A as A'. apply accepts_commit_inv in A'. destruct A' as [_ H]. apply processCommit_ok in H.
    destruct H as (c' & pr & sn & h & t & Hb' & Hck & _). assert (c' = c) by congruence. subst c'. rewrite Hs in Hck. cbn [sender_leafIndex] in Hck.
    apply checkCommit_ok in Hck. destruct Hck as (ps' & F & -> & -> & Hv & _).
    assert (ps' = ps). { unfold commits in Hc. apply resolveProposals_spec in F, Hc. congruence. } subst ps'.
    apply (reinit_alone ps li r s); auto. }
  split; [exact Hps|]. subst ps. destruct (tree_after_commit _ _ _ _ _ _ _ _ O A Hs Hc) as (t & (t1 & t2 & U1 & U2 & U3) & P).
  inversion U1; inversion U2; inversion U3; subst. split.
  - intros Ec. now rewrite Ec in P.
  - destruct (history [(raw, now)] g (0 + 1) He) as (H1 & H2 & H3 & H4 & H5 & _); [econstructor; [exact A|constructor]|].
    pose proof A as (_ & _ & E). unfold after in *. cbn in H1, H2, H3, H4, H5. rewrite E in *. cbn [fst] in *.
    splits; auto. eapply commit_keeps_extensions; eauto.
Qed.

Theorem reinit_ignored g raw now ac c g' li ps r s : crypto_ok C -> compact C -> obtained g -> can_sign g -> accepts_commit g raw now ac c g' ->
  fc_sender (ac_content ac) = SMember li -> commits g li c ps -> In (PReInit r, s) ps -> c_path c = None ->
  obtained g' /\ can_sign g' /\
  (forall data rnd rg, lenN rg = 4 -> lenN (enc_groupContext (gr_context g')) + lenN data < 2 ^ 26 ->
     exists msg, createApplicationMessage g' data rnd rg = Ok msg /\
       forall m now', same_epoch g' m -> unmarshalAndProcessMessage m msg now' = (m, Ok (Some data))) /\
  (forall kps rs ri rh rg, can_invite g' kps -> lenN rg = 4 -> exists g1 w com, createWelcome g' kps rs ri rh rg = (g1, Ok (w, com))).
Proof.
  intros HC HK O Cs A Hs Hc Hin Hp.
  destruct (reinit_only g raw now ac c g' li ps r s O A Hs Hc Hin) as (_ & Ev & _ & _ & Ecs & _ & Em & Es). specialize (Ev Hp).
  assert (O' : obtained g') by (pose proof A as (_ & _ & E); eapply obtained_message; [exact O|exact E]).
  assert (Cs' : can_sign g').
  { destruct Cs as (l & alg & Hl & Ha & P). exists l, alg. unfold own_leaf in *. rewrite Ev, Em, Ecs, Es. auto. }
  split; [exact O'|]. split; [exact Cs'|]. split.
  - intros data rnd rg Hg Hz. destruct (application_total HC HK g' data rnd rg O' Cs' Hg Hz) as (msg & E). exists msg. split; [exact E|].
    intros m now' Hm. eapply message_outcome; eauto.
  - intros kps rs ri rh rg Hi Hg. apply welcome_total; auto.
Qed.
End WithCrypto.
