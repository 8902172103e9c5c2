(** CreateWelcome does not look at the key packages; the members do. *)
From Verif Require Import OutcomeFacts CreateFacts.
From Verif Require Export SpecUnchecked.

Section WithCrypto.
Context {C : crypto}.

Lemma checkCommit_only_adds g li kps r : checkCommit g li (welcomeCommit kps) = Ok r -> let_in_together (gr_context g) kps.
Proof.
  destruct r as [proposals senders]. intros H. pose proof H as H0. apply checkCommit_ok in H. destruct H as (ps & F & -> & -> & Hr & Hk & _).
  assert (E : ps = map (fun k => (PAdd k, li)) kps).
  { unfold checkCommit, welcomeCommit in H0. cbn [c_proposals] in H0. rewrite resolve_adds in H0.
    apply resolveProposals_spec in F. cbn [welcomeCommit c_proposals] in F. rewrite resolve_adds in F. apply Ok_inj in F. now symmetry. }
  subst ps. split.
  - apply Forall_forall. intros k Hin. apply keyPackageVerify_ok, Hk. rewrite map_map. apply in_map_iff. now exists k.
  - assert (Ep : pskIds (map (fun k => (PAdd k, li)) kps) = []) by (clear; unfold pskIds; induction kps; cbn; auto).
    apply verifyProposalList_ok in Hr; [|rewrite Ep; constructor]. destruct Hr as [(Nd & _) _].
    replace (map (fun k => ln_signatureKey (kp_leafNode k)) kps) with (addedKeys (map (fun k => (PAdd k, li)) kps)); [exact Nd|].
    clear. unfold addedKeys. induction kps; cbn; [reflexivity|now rewrite IHkps].
Qed.
Lemma commit_refused g kps rs ri rh rg w raw e sg tag joiner g2 now : crypto_ok C ->
  u64 (gc_epoch (gr_context g)) -> u32 (gr_myLeafIndex g) -> lenN rg = 4 -> can_sign g -> Forall wf_keyPackage kps ->
  welcoming g kps rs ri rh rg w raw e sg tag joiner -> agree g g2 ->
  (exists r, unmarshalAndProcessMessage g2 raw now = (g2, r) /\ rejected r) \/ let_in_together (gr_context g) kps.
Proof.
  intros HC He Hli Hg (l & alg & Hl & Halg & Hp) Hwf W Hag.
  destruct (cipherSuiteDescriptions (gc_cipherSuite (gr_context g))) as [d|] eqn:Hd; [|discriminate]. cbn in Halg. injection Halg as <-.
  destruct W as [Wt (tbs & Htbs & Hsg) _ _ _ _ _ _ Hraw _].
  pose proof (signed_verifies _ _ _ _ _ _ _ _ Hd Hp Hsg) as Hv.
  destruct Hag as (A1 & A2 & A3 & A4 & A5 & A6).
  destruct (private_delivered g g2 (BCommit (welcomeCommit kps)) (mkAuthData sg tag) rg raw l tbs d HC He Hli) as (m & Hm & Ho); auto.
  { cbn. unfold wf_commit, welcomeCommit. cbn [c_proposals c_path]. split; [|exact I]. apply Forall_map. exact Hwf. }
  { left. reflexivity. }
  { split; auto. }
  unfold unmarshalAndProcessMessage. rewrite Hm. unfold processPrivateMessage. rewrite Ho. cbn [ac_content ownContent fc_body].
  unfold processCommit. cbn [ac_content ownContent fc_body fc_sender sender_leafIndex].
  destruct (checkCommit g2 _ (welcomeCommit kps)) as [r|?|?|] eqn:Ec; [|left; eexists; split; [reflexivity|exact I]..].
  right. rewrite <- A1. eapply checkCommit_only_adds; eauto.
Qed.
Theorem invitations_unchecked g kps rs ri rh rg : crypto_ok C -> compact C -> obtained g -> can_sign g -> can_invite g kps -> lenN rg = 4 ->
  exists g1 w raw, createWelcome g kps rs ri rh rg = (g1, Ok (w, raw)) /\
    forall m now, consistent m -> agree g m ->
      (let_in_together (gr_context g) kps -> exists m', unmarshalAndProcessMessage m raw now = (m', Ok None)) /\
      (~ let_in_together (gr_context g) kps -> exists r, unmarshalAndProcessMessage m raw now = (m, r) /\ rejected r).
Proof.
  intros HC HK O Cs Ci Hg. destruct (welcome_total HC HK g kps rs ri rh rg O Cs Ci Hg) as (g1 & w & raw & H). exists g1, w, raw. split; [exact H|].
  pose proof (obtained_sane _ O) as Sa. pose proof (sane_consistent _ Sa) as Hc.
  assert (Wk : Forall wf_keyPackage kps) by (apply Forall_forall; intros k Hin; now apply (ci_packages _ _ Ci)).
  destruct (createWelcome_parts _ _ _ _ _ _ _ _ _ HC (proj1 Hc) H) as (Hne & _ & e & sg & tag & joiner & W).
  intros m now Hm Hag. split.
  - intros [Ha Nd]. destruct (commit_processed g kps rs ri rh rg w raw e sg tag joiner m now) as (m' & H1 & _); auto; try apply Sa. now exists m'.
  - intros Hn. destruct (commit_refused g kps rs ri rh rg w raw e sg tag joiner m now) as [X|X]; auto; try apply Sa. contradiction.
Qed.
Theorem invitations_checked g kps rs ri rh rg g1 w raw m now m' r : crypto_ok C -> obtained g -> can_sign g -> lenN rg = 4 -> Forall wf_keyPackage kps ->
  createWelcome g kps rs ri rh rg = (g1, Ok (w, raw)) -> agree g m -> unmarshalAndProcessMessage m raw now = (m', Ok r) ->
  let_in_together (gr_context g) kps.
Proof.
  intros HC O Cs Hg Wk H Hag Hu. pose proof (obtained_sane _ O) as Sa. pose proof (sane_consistent _ Sa) as Hc.
  destruct (createWelcome_parts _ _ _ _ _ _ _ _ _ HC (proj1 Hc) H) as (Hne & _ & e & sg & tag & joiner & W).
  destruct (commit_refused g kps rs ri rh rg w raw e sg tag joiner m now) as [(r' & X & Y)|X]; auto; try apply Sa.
  rewrite Hu in X. injection X as _ <-. contradiction.
Qed.
End WithCrypto.
