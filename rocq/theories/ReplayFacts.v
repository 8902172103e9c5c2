(** Receiving the same proposal again and again. *)
From Verif Require Import GroupFacts PendingFacts.

Section WithCrypto.
Context {C : crypto}.

Lemma proposal_again g raw now ac p g' r : carries g raw ac -> fc_body (ac_content ac) = BProposal p -> unmarshalAndProcessMessage g raw now = (g', Ok r) ->
  exists pp, pp_proposal pp = p /\ forall P, unmarshalAndProcessMessage (withPending g P) raw now = (withPending g (P ++ [pp]), Ok None).
Proof.
  intros Hc Hb H. destruct (proposal_accepted g raw now ac p g' r Hc Hb H) as (-> & Sb & li & _ & Hp).
  exists (mkPendingProposal (ProposalRef (gc_cipherSuite (gr_context g)) ac) p li). split; [reflexivity|]. intros P.
  destruct (unmarshalAndProcessMessage (withPending g P) raw now) as [g2 r2] eqn:E2.
  destruct (message_pending g P raw now g' (Ok None) g2 r2) as (-> & S2 & [[(ac' & c & Ha) _]|(l & L1 & L2)]); auto.
  - intros ac' c Hc' Hb'. rewrite (carries_fun _ _ _ _ Hc' Hc), Hb in Hb'. discriminate.
  - destruct Ha as (Hc' & Hb' & _). rewrite (carries_fun _ _ _ _ Hc' Hc), Hb in Hb'. discriminate.
  - rewrite Hp in L1. apply app_inv_head in L1. subst l. rewrite S2, L2. unfold same_but_pending in Sb. rewrite Sb. reflexivity.
Qed.
Theorem replays_pile_up g raw now ac p g' r : carries g raw ac -> fc_body (ac_content ac) = BProposal p -> unmarshalAndProcessMessage g raw now = (g', Ok r) ->
  exists pp, pp_proposal pp = p /\ forall n, after g (repeat (raw, now) n) = withPending g (gr_pending g ++ repeat pp n).
Proof.
  intros Hc Hb H. destruct (proposal_again g raw now ac p g' r Hc Hb H) as (pp & Ep & A). exists pp. split; [exact Ep|].
  assert (G : forall n P, after (withPending g P) (repeat (raw, now) n) = withPending g (P ++ repeat pp n)).
  { induction n as [|n IH]; intros P; cbn [repeat after]; [now rewrite app_nil_r|]. rewrite A. cbn [fst]. rewrite IH, <- app_assoc. reflexivity. }
  intros n. specialize (G n (gr_pending g)). now destruct g.
Qed.

(** ** The list grows by one for a message *)
Lemma proposal_pending g ac g' r : processProposal g ac = (g', r) -> lenN (gr_pending g') <= lenN (gr_pending g) + 1.
Proof.
  unfold processProposal. intros H. destruct (fc_body _); [|destruct (generateProposalRef _ _) as [ref|?|?|]|];
    apply pair_equal_spec in H; destruct H as [<- _]; try lia. cbn [withPending gr_pending]. rewrite lenN_app'. reflexivity.
Qed.
Lemma commit_pending g ac now g' r : processCommit g ac [] [] now = (g', r) -> lenN (gr_pending g') <= lenN (gr_pending g).
Proof.
  unfold processCommit. intros H. destruct (fc_body _) as [?|?|c]; [apply pair_equal_spec in H; destruct H as [<- _]; lia..|].
  destruct (checkCommit _ _ _) as [[ps ss]|?|?|]; [|apply pair_equal_spec in H; destruct H as [<- _]; lia..].
  destruct (applyH _ _ _ _) as [[h t]|?|?|]; [|apply pair_equal_spec in H; destruct H as [<- _]; lia..].
  destruct (finishCommit _ _ _ _ _ _ _ _) as [g2|?|?|] eqn:F; apply pair_equal_spec in H; destruct H as [<- _]; try lia; [|cbn [withHeap gr_pending]; lia].
  unfold finishCommit in F. apply rbind_ok in F. destruct F as (priv & _ & F). apply rbind_ok in F. destruct F as (nh & _ & F).
  apply rbind_ok in F. destruct F as ([[[[h1 t1] th] cs] p1] & _ & F). apply rbind_ok in F. destruct F as ([[[[ctx it] ps'] es] is] & _ & F).
  apply Ok_inj in F. subst g2. apply N.le_0_l.
Qed.
Lemma message_pending_slow g raw now : lenN (gr_pending (fst (unmarshalAndProcessMessage g raw now))) <= lenN (gr_pending g) + 1.
Proof.
  unfold unmarshalAndProcessMessage. destruct (unmarshal getMlsMessage raw) as [[m|m|m|m|m]|?|?|]; try (cbn [fst]; lia).
  - unfold processPublicMessage, noData. destruct (verifyPublicMessage g m) as [ac|?|?|]; try (cbn [fst]; lia).
    destruct (fc_body (ac_content ac)); cbn [fst].
    + lia.
    + destruct (processProposal g ac) eqn:E. now apply proposal_pending in E.
    + destruct (processCommit g ac [] [] now) eqn:E. apply commit_pending in E. cbn [fst]. lia.
  - unfold processPrivateMessage, noData. destruct (openPrivateMessage g m) as [ac|?|?|]; try (cbn [fst]; lia).
    destruct (fc_body (ac_content ac)); cbn [fst].
    + lia.
    + destruct (processProposal g ac) eqn:E. now apply proposal_pending in E.
    + destruct (processCommit g ac [] [] now) eqn:E. apply commit_pending in E. cbn [fst]. lia.
Qed.
Theorem pending_slow l : forall g, lenN (gr_pending (after g l)) <= lenN (gr_pending g) + lenN l.
Proof.
  induction l as [|[raw now] l IH]; intros g; cbn [after]; [lia|]. eapply N.le_trans; [apply IH|].
  pose proof (message_pending_slow g raw now). assert (lenN ((raw, now) :: l) = lenN l + 1) by (unfold lenN; cbn [length]; lia). lia.
Qed.
End WithCrypto.
