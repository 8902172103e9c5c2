(** Proofs about what a Welcome shows of earlier epochs (C100). *)
From Verif Require Import AgreementFacts.
From Verif Require Export SecrecyFacts.

Section AnySecret.
Context {C : crypto}.
(** The secrets that messages are protected with are not used. *)
Theorem welcome_any_epoch g e p kps rs ri rh rg rg' g1 g2 w w' m m' :
  createWelcome g kps rs ri rh rg = (g1, Ok (w, m)) ->
  createWelcome (with_secrets g e (gr_initSecret g) p) kps rs ri rh rg' = (g2, Ok (w', m')) -> w' = w.
Proof.
  intros H H'. apply createWelcome_inv in H as (_ & h & t & Ha & _ & H). apply createWelcome_inv in H' as (_ & h' & t' & Ha' & _ & H').
  unfold with_secrets in *. cbn [gr_heap gr_tree gr_myLeafIndex] in Ha'. rewrite Ha in Ha'. apply Ok_inj in Ha'. apply pair_equal_spec in Ha' as [<- <-].
  apply finishWelcome_inv in H as (th & nh & ps & pc & cf & j & es & tg & rt & gi & ei & se & H1 & H2 & H3 & H4 & H5 & H6 & H7 & H8 & H9 & H10 & H11 & H12 & _ & ->).
  apply finishWelcome_inv in H' as (th' & nh' & ps' & pc' & cf' & j' & es' & tg' & rt' & gi' & ei' & se' & K1 & K2 & K3 & K4 & K5 & K6 & K7 & K8 & K9 & K10 & K11 & K12 & _ & ->).
  unfold welcomeContent, ownContent in *.
  cbn [gr_context gr_initSecret gr_signaturePriv gr_myLeafIndex gr_interimTranscriptHash] in *.
  rewrite H1 in K1. apply Ok_inj in K1. subst th'. rewrite H2 in K2. apply Ok_inj in K2. subst nh'. rewrite H3 in K3. apply Ok_inj in K3. subst ps'.
  rewrite H4 in K4. apply Ok_inj in K4. subst pc'. rewrite H5 in K5. apply Ok_inj in K5. subst cf'. rewrite H6 in K6. apply Ok_inj in K6. subst j'.
  rewrite H7 in K7. apply Ok_inj in K7. subst es'. rewrite H8 in K8. apply Ok_inj in K8. subst tg'. rewrite H9 in K9. apply Ok_inj in K9. subst rt'.
  rewrite H10 in K10. apply Ok_inj in K10. subst gi'. rewrite H11 in K11. apply Ok_inj in K11. subst ei'. rewrite H12 in K12. apply Ok_inj in K12. now subst se'.
Qed.
End AnySecret.

Section OneWay.
Context {C : crypto} {secret : bytes -> Prop} (O : one_way C secret).
Variables (g : group) (e i p : bytes).
Hypotheses (Se : secret (gr_epochSecret g)) (Si : secret (gr_initSecret g)) (Se' : secret e) (Si' : secret i).
Let g2 := with_secrets g e i p.

Lemma protect_any content pc rg : groupEncryptPrivateMessage g2 content pc rg = groupEncryptPrivateMessage g content pc rg.
Proof.
  unfold groupEncryptPrivateMessage. change (gr_context g2) with (gr_context g). change (gr_myLeafIndex g2) with (gr_myLeafIndex g). change (gr_epochSecret g2) with e.
  unfold g2. rewrite (messageSecret_any O g e i p Se Se'). now rewrite (derive_any O _ _ _ _ Se' Se).
Qed.
Lemma finishWelcome_any kps h t rs ri rh rg : finishWelcome g2 kps h t rs ri rh rg = finishWelcome g kps h t rs ri rh rg.
Proof.
  unfold finishWelcome, ownContent. cbv zeta. change (gr_context g2) with (gr_context g). change (gr_myLeafIndex g2) with (gr_myLeafIndex g).
  change (gr_signaturePriv g2) with (gr_signaturePriv g). change (gr_interimTranscriptHash g2) with (gr_interimTranscriptHash g). change (gr_initSecret g2) with i.
  assert (J : forall ctx z, extractJoinerSecret ctx i z = extractJoinerSecret ctx (gr_initSecret g) z).
  { intros ctx z. unfold extractJoinerSecret, extract. destruct (describe _); cbn [rbind]; auto. now rewrite (one_way_extract _ _ O _ _ _ _ Si' Si). }
  destruct (computeRootTreeHash _ _); cbn [rbind]; auto. destruct (extractSize _); cbn [rbind]; auto. destruct (extractPSKSecret _ _ _); cbn [rbind]; auto.
  destruct (signPrivateMessageContent _ _ _ _ _); cbn [rbind]; auto. destruct (confirmedTranscriptHash _ _ _ _ _); cbn [rbind]; auto.
  rewrite J. destruct (extractJoinerSecret _ _ _); cbn [rbind]; auto. destruct (extractEpochSecret _ _ _); cbn [rbind]; auto.
  destruct (signConfirmationTag _ _); cbn [rbind]; auto. destruct (putRatchetTree _); cbn [rbind]; auto. destruct (groupInfoSign _ _ _); cbn [rbind]; auto.
  destruct (groupInfoEncrypt _ _ _); cbn [rbind]; auto. destruct (encryptSecretsFor _ _ _ _ _); cbn [rbind]; auto. now rewrite protect_any.
Qed.
Theorem welcome_forgets kps rs ri rh rg : snd (createWelcome g2 kps rs ri rh rg) = snd (createWelcome g kps rs ri rh rg).
Proof.
  unfold createWelcome. change (gr_heap g2) with (gr_heap g). change (gr_tree g2) with (gr_tree g). change (gr_myLeafIndex g2) with (gr_myLeafIndex g).
  destruct kps; [reflexivity|]. destruct (applyH _ _ _ _) as [[h t]| | |]; try reflexivity. cbn [snd]. apply finishWelcome_any.
Qed.
End OneWay.
