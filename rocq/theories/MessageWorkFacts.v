(** Lemmas about MessageWork.v. *)
From Verif Require Export MessageWork HashWorkFacts.

Ltac step_in x := match type of x with
  | (_ * _)%type => let a := fresh in let b := fresh in destruct x as [a b]; try step_in a
  | _ => idtac end.
Ltac erase1 := rewrite fst_bind; apply rbind_ext; [try reflexivity|let x := fresh "x" in intros x; step_in x].

Section WithCrypto.
Context {C : crypto}.

(** ** Apart from the count nothing changes *)
Lemma erase_merge_hashes cs s dp : forall fdp t prev,
  fst (countMergeParentHashes cs s dp t prev fdp) = mergeParentHashes cs s dp t prev fdp.
Proof.
  induction fdp as [|ni r IH]; intros t prev; [reflexivity|]. cbn [countMergeParentHashes mergeParentHashes]. erase1.
  destruct x as [[l|p]|]; try reflexivity. destruct (children ni) as [[lc rc]|]; [|reflexivity]. cbv zeta.
  erase1; [apply erase_hash|]. erase1. erase1. apply IH.
Qed.
Lemma erase_merge cs t li path : fst (countMergeUpdatePath cs t li path) = mergeUpdatePath cs t li path.
Proof. unfold countMergeUpdatePath, mergeUpdatePath. cbv zeta. do 5 erase1. erase1; [apply erase_merge_hashes|]. erase1. reflexivity. Qed.
Lemma erase_mergeH cs h t li path : fst (countMergeUpdatePathH cs h t li path) = mergeUpdatePathH cs h t li path.
Proof. unfold countMergeUpdatePathH, mergeUpdatePathH. erase1; [apply erase_merge|]. erase1. reflexivity. Qed.
Lemma erase_nodePriv cs s p : fst (countNodePriv cs s p) = nodePrivFromPathSecret cs s p.
Proof. unfold countNodePriv, nodePrivFromPathSecret. do 2 erase1. reflexivity. Qed.
Lemma erase_derive cs t : forall path priv s, fst (countDerivePath cs t priv s path) = derivePath cs t priv s path.
Proof.
  induction path as [|ni r IH]; intros priv s; [reflexivity|]. cbn [countDerivePath derivePath]. do 2 erase1.
  destruct x0 as [n|]; [|reflexivity]. erase1; [apply erase_nodePriv|]. erase1. apply IH.
Qed.
Lemma erase_decrypt cs t ctx a b path priv : fst (countDecryptPathSecrets cs t ctx a b path priv) = decryptPathSecrets cs t ctx a b path priv.
Proof.
  unfold countDecryptPathSecrets, decryptPathSecrets. cbv zeta. do 2 erase1. destruct (position _ _) as [i|]; [|reflexivity]. erase1.
  match goal with |- context [if ?c then left ?x else right ?x] => destruct (if c then left x else right x) as [cn|] end; [|reflexivity].
  do 3 erase1. destruct x4 as [[ri np]|]; [|reflexivity]. do 3 erase1. destruct x6 as [n|]; [|reflexivity].
  erase1; [apply erase_nodePriv|]. erase1. erase1; [apply erase_derive|]. erase1. reflexivity.
Qed.
Lemma erase_path g li path h t priv now : fst (countPath g li path h t priv now) = processPath g li path h t priv now.
Proof.
  unfold countPath, processPath. cbv zeta. do 3 erase1. destruct x0 as [sn|]; [|reflexivity]. do 3 erase1. erase1; [apply erase_mergeH|].
  erase1; [apply erase_hash|]. erase1; [apply erase_decrypt|]. reflexivity.
Qed.
Lemma erase_epoch g ac th s ids psks : fst (countEpoch g ac th s ids psks) = nextEpoch g ac th s ids psks.
Proof. unfold countEpoch, nextEpoch. cbv zeta. do 6 erase1. reflexivity. Qed.
Lemma erase_finish g ac c h t ids psks now : fst (countFinish g ac c h t ids psks now) = finishCommit g ac c h t ids psks now.
Proof.
  unfold countFinish, finishCommit. cbv zeta. do 2 erase1. erase1.
  - destruct (c_path c); [apply erase_path|]. erase1; [apply erase_hash|]. reflexivity.
  - erase1; [apply erase_epoch|]. reflexivity.
Qed.
Lemma erase_adds ctx : forall l, fst (countAdds ctx l) =
  foldM (fun _ p => match p with PAdd k => keyPackageVerify k ctx | _ => Ok tt end) tt l.
Proof.
  induction l as [|p r IH]; [reflexivity|]. cbn [countAdds foldM]. erase1; [now destruct p|]. destruct x. exact IH.
Qed.
Lemma erase_check g li c : fst (countCheck g li c) = checkCommit g li c.
Proof. unfold countCheck, checkCommit. cbv zeta. do 2 erase1. erase1; [apply erase_adds|]. erase1. reflexivity. Qed.
Lemma erase_commit g ac ids psks now : fst (countCommit g ac ids psks now) = processCommit g ac ids psks now.
Proof.
  unfold countCommit, processCommit. destruct (fc_body (ac_content ac)) as [?|?|c]; try reflexivity. cbv zeta. rewrite erase_check.
  destruct (checkCommit _ _ _) as [[ps ss]|?|?|]; try reflexivity. destruct (applyH _ _ _ _) as [[h t]|?|?|]; try reflexivity.
  cbn [fst]. rewrite erase_finish. reflexivity.
Qed.
Lemma erase_public g m : fst (countPublic g m) = verifyPublicMessage g m.
Proof.
  unfold countPublic, verifyPublicMessage. cbv zeta. do 2 erase1. destruct (fc_sender (pubm_content m)); try reflexivity. erase1.
  destruct x1; [|reflexivity]. do 5 erase1. reflexivity.
Qed.
Lemma erase_children cs : forall fuel t x, fst (countChildren fuel cs t x) = deriveChildren fuel cs t x.
Proof.
  induction fuel as [|f IH]; intros t x; cbn [countChildren deriveChildren]; destruct (children x) as [[l r]|]; try reflexivity.
  do 6 erase1. erase1; [apply IH|]. apply IH.
Qed.
Lemma erase_forward cs : forall n s, fst (countForward cs s n) = ratchetForward cs s n.
Proof. induction n as [|n IH]; intros s; [reflexivity|]. cbn [countForward ratchetForward]. erase1. apply IH. Qed.
Lemma erase_secret g li ct n : fst (countSecret g li ct n) = messageSecret g li ct n.
Proof.
  unfold countSecret, messageSecret. cbv zeta. erase1. erase1; [unfold countSecretTree, deriveSecretTree; erase1; apply erase_children|].
  do 2 erase1. apply erase_forward.
Qed.
Lemma erase_private g m : fst (countPrivate g m) = openPrivateMessage g m.
Proof.
  unfold countPrivate, openPrivateMessage. cbv zeta. do 4 erase1. erase1; [apply erase_secret|]. do 2 erase1.
  match goal with |- context [match ?x with Some _ => _ | None => _ end] => destruct x end; [|reflexivity]. do 2 erase1. reflexivity.
Qed.
Theorem erase_message g raw now : fst (countMessage g raw now) = unmarshalAndProcessMessage g raw now.
Proof.
  unfold countMessage, unmarshalAndProcessMessage. destruct (unmarshal getMlsMessage raw) as [[m|m|m|m|m]|?|?|]; try reflexivity; cbv zeta.
  - unfold processPublicMessage. rewrite erase_public. destruct (verifyPublicMessage g m) as [ac|?|?|]; try reflexivity. cbn [fst].
    destruct (fc_body (ac_content ac)) eqn:B; try reflexivity. rewrite erase_commit. reflexivity.
  - unfold processPrivateMessage. rewrite erase_private. destruct (openPrivateMessage g m) as [ac|?|?|]; try reflexivity. cbn [fst].
    destruct (fc_body (ac_content ac)) eqn:B; try reflexivity. unfold noDataCounted. cbn [fst]. rewrite erase_commit. reflexivity.
Qed.
End WithCrypto.
