(** Exactly which messages are accepted. *)
From Verif Require Export AcceptFacts SpecExact.
From Verif Require Import TreeOpFacts CommitTreeFacts.

(** ** The code applies the proposals whenever they can be applied. *)
Lemma updated_fun t u a b : updated t u a -> updated t u b -> a = b.
Proof.
  intros (k & Sh & R) (k' & Sh' & R'). rewrite (height_unique k' k t (shaped_full _ _ Sh') (shaped_full _ _ Sh)) in R'. eapply replaced_fun; eauto.
Qed.
Lemma removed_fun t r a b : removed t r a -> removed t r b -> a = b.
Proof.
  intros (k & u1 & Sh & R & T) (k' & u2 & Sh' & R' & T').
  assert (k' = k) as -> by (exact (height_unique k' k t (shaped_full _ _ Sh') (shaped_full _ _ Sh))).
  rewrite (replaced_fun _ _ _ _ _ _ R' R) in T'. eapply truncated_fun; eauto.
Qed.
Lemma joined_fun t l a b : SpecCommitTree.joined t l a -> SpecCommitTree.joined t l b -> a = b.
Proof.
  intros (k & u0 & li & Hf & Sh & A & D) (k' & u0' & li' & Hf' & Sh' & A' & D').
  rewrite (leftmost_fun _ _ _ Hf' Hf) in *. assert (E : u0' = u0) by (rewrite (joined_grows t l a k u0 li), (joined_grows t l b k' u0' li); auto). subst u0'.
  assert (k' = k) as -> by (exact (height_unique k' k u0 (shaped_full _ _ Sh') (shaped_full _ _ Sh))). eapply added_fun; eauto.
Qed.

Lemma updates_complete l : forall t t', one_by_one updated t (updatesOf l) t' -> foldM updPair t l = Ok t'.
Proof.
  induction l as [|[p s] l IH]; intros t t' H; cbn [foldM].
  - now inversion H.
  - unfold updPair at 1. cbn [fst snd]. destruct p as [kp|n|rm|id|ri|ko|exts]; try (cbn [rbind]; now apply IH).
    change (updatesOf ((PUpdate n, s) :: l)) with ((designated s, n) :: updatesOf l) in H. inversion H as [|? ? t1 ? ? Hu Ho]; subst.
    pose proof Hu as (k & Sh & R). cbn [fst snd] in R. destruct (update_ok k t s (NLeaf n) (shaped_full _ _ Sh)) as (t2 & E & R2); [apply R|].
    assert (t2 = t1) as -> by (apply (updated_fun t (designated s, n)); [exists k; split; [exact Sh|exact R2]|exact Hu]). rewrite E. cbn [rbind]. now apply IH.
Qed.
Lemma removes_complete props : forall t t', one_by_one removed t (flat_map (fun p => match p with PRemove r => [designated r] | _ => [] end) props) t' ->
  foldM remStep t props = Ok t'.
Proof.
  induction props as [|p props IH]; intros t t' H; cbn [foldM flat_map] in *.
  - now inversion H.
  - unfold remStep at 1. destruct p; try (cbn [rbind]; now apply IH).
    cbn [app] in H. inversion H as [|? ? t1 ? ? Hu Ho]; subst.
    pose proof Hu as (k & t0 & Sh & R & T). match goal with |- context [Tree.remove t ?r] => destruct (remove_ok k t r (shaped_full _ _ Sh)) as (t2 & t3 & E & R2 & T2); [apply R|] end.
    assert (t3 = t1) as -> by (eapply removed_fun; [exists k, t2; splits; [exact Sh|exact R2|exact T2]|exact Hu]). rewrite E. cbn [rbind]. now apply IH.
Qed.
Lemma joined_room t l t' : SpecCommitTree.joined t l t' -> room t.
Proof.
  intros (k & t0 & li & [Hf _] & Sh & A & [->|[-> _]]).
  - right. exists li. split; [|exact Hf]. apply (leaf_in_array k _ li (shaped_full _ _ Sh)). apply A.
  - left. destruct (shaped_full _ _ Sh) as [Hk Hl]. rewrite node_leaf_count in Hl. pose proof (leaf_count_31 k Hk).
    unfold grown in Hl. destruct t; [vm_compute; reflexivity|]. unfold lenN in *. rewrite !app_length, ?repeat_length in Hl. cbn [length] in *. lia.
Qed.
Lemma adds_complete props : forall t t', well_shaped t -> one_by_one SpecCommitTree.joined t (flat_map (fun p => match p with PAdd k => [kp_leafNode k] | _ => [] end) props) t' ->
  foldM addStep t props = Ok t'.
Proof.
  induction props as [|p props IH]; intros t t' W H; cbn [foldM flat_map] in *.
  - now inversion H.
  - unfold addStep at 1. destruct p; try (cbn [rbind]; now apply IH).
    cbn [app] in H. inversion H as [|? ? t1 ? ? Hu Ho]; subst.
    match goal with |- context [vadd t ?l] => destruct (vadd_ok t l W (joined_room _ _ _ Hu)) as (k & t0 & li & t2 & E & HL & HT & HS & HA) end.
    assert (t2 = t1) as -> by (eapply joined_fun; [exists k, t0, li; splits; eauto|exact Hu]). rewrite E. cbn [rbind]. apply IH; [|exact Ho]. right. exists k. apply HA.
Qed.
Lemma vapply_complete t ps t' : well_shaped t -> after_proposals t ps t' -> vapply t (map fst ps) (map snd ps) = Ok t'.
Proof.
  intros W (t1 & t2 & U & R & A). rewrite vapply_eq, updates_eq. pose proof (updates_complete _ _ _ U) as E1. rewrite E1. cbn [rbind].
  destruct (updates_one_by_one _ _ _ W E1) as [_ W1].
  assert (E2 : foldM remStep t1 (map fst ps) = Ok t2) by (apply removes_complete; now rewrite flat_map_map). rewrite E2. cbn [rbind].
  destruct (removes_one_by_one _ _ _ W1 E2) as [_ W2]. apply adds_complete; [exact W2|now rewrite flat_map_map].
Qed.

Section WithCrypto.
Context {C : crypto}.

(** ** A tree with a tree hash can be encoded. *)
Lemma treeHashLoop_encodes k t cs : shaped k t -> forall d p fuel h, in_tree k p -> (d = k - length p)%nat -> (d <= fuel)%nat ->
  treeHashLoop fuel cs t [] (number k p) = Ok h ->
  forall q n, in_tree k q -> ancestor_or_self p q -> at_path k t q = Some n -> exists e, putNode n = Ok e.
Proof.
  intros Sh. induction d as [|d IH]; intros p fuel h Hp Hd Hf H q n Hq Ha Hn.
  - assert (El : length p = k) by (unfold in_tree in *; lia). apply aos_same in Ha; [|apply aos_length in Ha; unfold in_tree in Hq; lia]. subst q.
    rewrite treeHashLoop_leaf in H by auto. apply rbind_ok in H. destruct H as (i & Hi & _). unfold shownLeaf in Hi. cbn [existsb] in Hi. rewrite Hn in Hi.
    destruct n as [l|pn]; [|destruct Sh as [_ Sh]; specialize (Sh p _ Hp Hn); cbn in Sh; lia].
    unfold putLeafNodeHashInput in Hi. unwapp. cbn [putNode]. unfold wapp. match goal with E : putLeafNode l = Ok _ |- _ => rewrite E end. eexists. reflexivity.
  - assert (Hlt : (length p < k)%nat) by lia. destruct fuel as [|fuel]; [lia|]. rewrite treeHashLoop_parent in H by auto.
    apply rbind_ok in H. destruct H as (hl & H1 & H). apply rbind_ok in H. destruct H as (hr & H2 & H). apply rbind_ok in H. destruct H as (i & Hi & _).
    apply aos_child in Ha. destruct Ha as [->|(b & Ha)].
    + unfold shownParent in Hi. rewrite Hn in Hi. destruct n as [l|pn]; [destruct Sh as [_ Sh]; specialize (Sh p _ Hp Hn); cbn in Sh; lia|].
      assert (Ef : filter (fun li => negb (existsb (N.eqb li) [])) (pn_unmergedLeaves pn) = pn_unmergedLeaves pn).
      { clear. induction (pn_unmergedLeaves pn) as [|x l IH]; cbn in *; [reflexivity|now rewrite IH]. }
      rewrite Ef in Hi. destruct pn as [a b u]. cbn [pn_encryptionKey pn_parentHash pn_unmergedLeaves] in Hi.
      unfold putParentNodeHashInput in Hi. unwapp. cbn [putNode]. unfold wapp. match goal with E : putParentNode _ = Ok _ |- _ => rewrite E end. eexists. reflexivity.
    + destruct b.
      * eapply (IH (p ++ [true]) fuel hr); eauto; [now apply snoc_in|rewrite app_length; cbn; lia|lia].
      * eapply (IH (p ++ [false]) fuel hl); eauto; [now apply snoc_in|rewrite app_length; cbn; lia|lia].
Qed.
Lemma rootTreeHash_encodes k cs t h : shaped k t -> computeRootTreeHash cs t = Ok h -> encodable t.
Proof.
  intros Sh H n Hin. pose proof (shaped_full _ _ Sh) as F. rewrite (rootTreeHash_eq _ k) in H by assumption.
  apply In_nth_error in Hin. destruct Hin as (i & Hi). assert (Hlt : N.of_nat i < node_count k).
  { destruct F as [_ <-]. unfold lenN. assert (i < length t)%nat by (apply nth_error_Some; congruence). lia. }
  destruct (number_onto k _ Hlt) as (q & Hq & Eq).
  destruct F as [Hk _]. unfold fits in Hk. refine (treeHashLoop_encodes k t cs Sh k [] 32 h _ _ _ H q n Hq _ _).
  - unfold in_tree. cbn. lia.
  - cbn. lia.
  - lia.
  - exists q. reflexivity.
  - unfold at_path. rewrite Eq, Nat2N.id, Hi. reflexivity.
Qed.

(** ** Commits *)
Lemma check_accepts_all g ac c li ps : obtained g -> wf_commit c -> acceptable_commit g ac c li ps -> checkCommit g li c = Ok (map fst ps, map snd ps).
Proof.
  intros O Wc V. pose proof (commit_wf _ _ _ _ (obtained_inv _ O) Wc (ac_proposals _ _ _ _ _ V)) as Hps.
  unfold checkCommit. rewrite (proj2 (resolveProposals_spec _ _ _ _) (ac_proposals _ _ _ _ _ V)). cbn [rbind]. cbv zeta.
  rewrite (proj2 (verifyProposalList_ok _ li (wf_pskIds _ Hps)) (conj (ac_rule _ _ _ _ _ V) (ac_psks _ _ _ _ _ V))). cbn [rbind].
  assert (Ef : foldM (fun _ p => match p with PAdd k => keyPackageVerify k (gr_context g) | _ => Ok tt end) tt (map fst ps) = Ok tt).
  { pose proof (ac_adds _ _ _ _ _ V) as Ha. clear - Ha. induction ps as [|[p s] ps IH]; [reflexivity|]. cbn [map fst foldM].
    assert (E : match p with PAdd k => keyPackageVerify k (gr_context g) | _ => Ok tt end = Ok tt).
    { destruct p; try reflexivity. apply keyPackageVerify_addable. eapply Ha. left. reflexivity. }
    rewrite E. cbn [rbind]. apply IH. intros. eapply Ha. right. eauto. }
  rewrite Ef. cbn [rbind]. destruct (c_path c) as [up|] eqn:Ep; [now rewrite andb_false_r|].
  destruct (ac_path _ _ _ _ _ V Ep) as [Hne Hn]. rewrite andb_true_r. destruct (proposalListNeedsPath (map fst ps)) eqn:En; [|reflexivity].
  apply needsPath_spec in En. destruct En as [En|(p & Hin & Hp)]; [destruct ps; [contradiction|discriminate]|].
  apply in_map_iff in Hin. destruct Hin as ([q s] & <- & Hin). exfalso. exact (Hn _ _ Hin Hp).
Qed.

Theorem acceptable_accepted g raw ac c li ps t' now : crypto_ok C -> obtained g -> known_suite (gc_cipherSuite (gr_context g)) ->
  received g raw ac -> acceptable_commit g ac c li ps -> valid_tree g c li ps t' ->
  exists g', unmarshalAndProcessMessage g raw now = (g', Ok None) /\ gr_value g' = t'.
Proof.
  intros OK O Kn R V T. pose proof (ac_body _ _ _ _ _ V) as Hb. pose proof (ac_sender _ _ _ _ _ V) as Hs.
  rewrite (received_commit _ _ _ _ now Kn R Hb). destruct (carries_wf _ _ _ (rc_carries _ _ _ R)) as [Wf _].
  assert (Wc : wf_commit c). { unfold wf_framedContent in Wf. rewrite Hb in Wf. apply Wf. }
  pose proof (obtained_sane g O) as Sa. pose proof (sane_shape _ Sa) as W0.
  assert (AP0 : exists t0, after_proposals (gr_value g) ps t0).
  { unfold valid_tree in T. destruct (c_path c); [|exists t'; apply T]. destruct T as (k & t & new & VP & _). exists t. apply (vp_tree _ _ _ _ _ _ _ _ VP). }
  destruct AP0 as (v & AP0). pose proof (vapply_complete _ _ _ W0 AP0) as Ev0.
  pose proof (proj1 (sane_consistent _ Sa)) as Pr0. unfold gr_value in Ev0.
  destruct (applyH_of_value _ _ _ _ _ Pr0 Ev0) as (h & t & Ea & Dv & Pr). fold (gr_value g) in Ev0. rewrite <- Dv in Ev0. pose proof Ev0 as Ev.
  pose proof (vapply_one_by_one _ _ _ W0 Ev) as AP.
  destruct (carryPriv_ok (length (gr_tree g)) (length t) (gr_privTree g) (proj2 (sane_consistent _ Sa))) as (p & Ecp & _).
  assert (F : exists g', finishCommit g ac c h t [] [] now = Ok g' /\ gr_value g' = t').
  { unfold finishCommit. cbv zeta. rewrite Ecp. cbn [rbind]. rewrite (proj2 (gives_extractSize _) Kn). cbn [rbind]. unfold valid_tree in T.
    destruct (c_path c) as [up|] eqn:Ep.
    - destruct T as (k & t0 & new & VP & FP). assert (t0 = deref h t) by (eapply after_proposals_fun; [apply (vp_tree _ _ _ _ _ _ _ _ VP)|exact AP]). subst t0.
      assert (Wl : wf_leafNode (up_leafNode up)) by (unfold wf_commit in Wc; rewrite Ep in Wc; apply Wc).
      destruct (path_accepts g ps li up k (deref h t) t' new h t now p OK O Kn Wl VP FP Pr eq_refl Ecp) as (h1 & t1 & z & p1 & Epp & E1).
      rewrite Hs. cbn [sender_leafIndex]. rewrite Epp. cbn [rbind].
      destruct (epoch_accepts g raw ac c (tree_hash (gc_cipherSuite (gr_context g)) k t' [] k []) z OK Kn R Hb (tree_hash_small _ _ _ OK)) as ([[[[x1 x2] x3] x4] x5] & ->).
      cbn [rbind]. eexists. split; [reflexivity|exact E1].
    - destruct T as [AP' En]. assert (t' = deref h t) as -> by (eapply after_proposals_fun; [exact AP'|exact AP]).
      assert (W : well_shaped (deref h t)) by exact (vapply_shape _ _ _ _ (sane_shape _ Sa) Ev).
      destruct W as [W|(k & Sh)].
      { exfalso. assert (Nn : proposalListNeedsPath (map fst ps) = false).
        { destruct (ac_path _ _ _ _ _ V Ep) as [Hne Hn]. destruct (proposalListNeedsPath (map fst ps)) eqn:X; [|reflexivity]. apply needsPath_spec in X.
          destruct X as [X|(q & Hin & Hq)]; [destruct ps; [contradiction|discriminate]|]. apply in_map_iff in Hin. destruct Hin as ([q' s] & <- & Hin). exfalso. exact (Hn _ _ Hin Hq). }
        exact (apply_keeps _ _ _ _ _ (sane_shape _ Sa) (ms_index _ (obtained_state g O)) Nn Ev (ms_in _ (obtained_state g O)) ltac:(rewrite W; apply no_member_nil)). }
      destruct Kn as (d & Hd). rewrite (rootTreeHash_complete k _ _ d Sh OK En) by now rewrite <- suite_eq. cbn [rbind].
      match goal with |- context [nextEpoch g ac ?th ?z [] []] => destruct (epoch_accepts g raw ac c th z OK (ex_intro _ d Hd) R Hb (tree_hash_small _ _ _ OK)) as ([[[[x1 x2] x3] x4] x5] & ->) end.
      cbn [rbind]. eexists. split; reflexivity. }
  destruct F as (g' & Hf & Hv). exists g'. split; [|exact Hv]. unfold processCommit. rewrite Hb, Hs. cbn [sender_leafIndex].
  rewrite (check_accepts_all _ _ _ _ _ O Wc V), Ea, Hf. reflexivity.
Qed.

Lemma accepted_acceptable g raw now ac c g' : obtained g -> accepts_commit g raw now ac c g' ->
  authentic g ac /\ tagged g raw /\
  exists li ps t, acceptable_commit g ac c li ps /\ after_proposals (gr_value g) ps t /\
    match c_path c with
    | None => gr_value g' = t /\ encodable t
    | Some up => path_checked (gc_cipherSuite (gr_context g)) (gc_groupID (gr_context g)) t li up
    end.
Proof.
  intros O A. pose proof A as (Hc & Hb & Hu). destruct (accepts_commit_inv _ _ _ _ _ _ A) as [Au Hp]. split; [exact Au|]. split.
  { destruct (acted_on_or _ _ _ _ _ Hu) as [[_ []]|(ac' & _ & _ & Ht & _)]. exact Ht. }
  pose proof Au as (_ & _ & li & leaf & Hs & _). apply processCommit_ok in Hp. destruct Hp as (c' & proposals & senders & h & t & Hb' & Hck & Ha & Hf).
  assert (c' = c) by congruence. subst c'. rewrite Hs in Hck. cbn [sender_leafIndex] in Hck. apply checkCommit_ok in Hck.
  destruct Hck as (ps & F & -> & -> & Hv & Hk & Hn). destruct (carries_wf _ _ _ Hc) as [Wf _].
  assert (Wc : wf_commit c). { unfold wf_framedContent in Wf. rewrite Hb in Wf. apply Wf. }
  pose proof (commit_wf _ _ _ _ (obtained_inv _ O) Wc F) as Hps. apply (verifyProposalList_ok _ _ (wf_pskIds _ Hps)) in Hv.
  destruct (tree_after_commit _ _ _ _ _ _ _ _ O A Hs F) as (t0 & AP & P). exists li, ps, t0. splits.
  - constructor; try tauto; auto.
    + intros k s Hin. apply keyPackageVerify_ok, Hk. apply in_map_iff. exists (PAdd k, s). auto.
    + intros Ep. destruct (Hn Ep) as [N1 N2]. split; [intros ->; apply N1; reflexivity|]. intros p s Hin. apply N2. apply in_map_iff. exists (p, s). auto.
  - exact AP.
  - destruct (c_path c) as [up|] eqn:Ep; [apply P|]. split; [exact P|]. destruct (finishCommit_ok _ _ _ _ _ _ _ _ _ Hf) as (priv & nh & h1 & t1 & th & cs & priv1 & ctx & it & psk & es & ini & _ & _ & Hq & _ & Eg).
    rewrite Ep in Hq. destruct Hq as (-> & -> & Hh & _). rewrite Eg in P. unfold gr_value in P. cbn [gr_heap gr_tree] in P. rewrite P in Hh.
    pose proof (sane_shape _ (obtained_sane g O)) as W0. pose proof (vapply_shape _ _ _ _ W0 (vapply_complete _ _ _ W0 AP)) as [W|(k & Sh)].
    + subst t0. rewrite W. intros n [].
    + exact (rootTreeHash_encodes _ _ _ _ Sh Hh).
Qed.

Theorem commits_accepted_iff g raw ac c now : crypto_ok C -> obtained g -> known_suite (gc_cipherSuite (gr_context g)) ->
  carries g raw ac -> modest g ac -> fc_body (ac_content ac) = BCommit c -> c_path c = None ->
  ((exists g' r, unmarshalAndProcessMessage g raw now = (g', Ok r)) <->
   authentic g ac /\ tagged g raw /\ exists li ps t, acceptable_commit g ac c li ps /\ after_proposals (gr_value g) ps t /\ encodable t).
Proof.
  intros OK O Kn Hc Hm Hb Ep. split.
  - intros (g' & r & H). assert (r = None) as ->.
    { destruct (acted_on_or _ _ _ _ _ H) as [[_ []]|(ac' & Hc' & _ & _ & Hx)]. assert (ac' = ac) by (eapply carries_fun; eauto). subst ac'. rewrite Hb in Hx.
      unfold noData in Hx. destruct (processCommit g ac [] [] now) as [g1 [[]| | |]]; cbn in Hx; congruence. }
    destruct (accepted_acceptable g raw now ac c g' O) as (A1 & A2 & li & ps & t & A3 & A4 & A5); [exact (conj Hc (conj Hb H))|].
    rewrite Ep in A5. split; [exact A1|]. split; [exact A2|]. exists li, ps, t. split; [exact A3|]. split; [exact A4|apply A5].
  - intros (Au & Ht & li & ps & t & V & AP & En).
    destruct (acceptable_accepted g raw ac c li ps t now OK O Kn) as (g' & H & _); [constructor; auto|exact V|unfold valid_tree; rewrite Ep; auto|]. eauto.
Qed.

Theorem proposals_accepted_iff g raw ac p now : crypto_ok C -> known_suite (gc_cipherSuite (gr_context g)) ->
  carries g raw ac -> modest g ac -> fc_body (ac_content ac) = BProposal p ->
  ((exists g' r, unmarshalAndProcessMessage g raw now = (g', Ok r)) <-> authentic g ac /\ tagged g raw).
Proof.
  intros OK Kn Hc Hm Hb. split.
  - intros (g' & r & H). destruct (acted_on_or _ _ _ _ _ H) as [[_ []]|(ac' & Hc' & Au & Ht & _)].
    assert (ac' = ac) by (eapply carries_fun; eauto). subst ac'. auto.
  - intros [Au Ht]. destruct (proposals_accepted g raw ac p now) as (g' & li & H & _); auto; [constructor; auto|]. eauto.
Qed.

Theorem data_accepted_iff g raw ac d now : crypto_ok C -> known_suite (gc_cipherSuite (gr_context g)) ->
  carries g raw ac -> modest g ac -> fc_body (ac_content ac) = BApplication d ->
  ((exists g' r, unmarshalAndProcessMessage g raw now = (g', Ok r)) <-> authentic g ac /\ ac_wireFormat ac = 2).
Proof.
  intros OK Kn Hc Hm Hb. split.
  - intros (g' & r & H). destruct (acted_on_or _ _ _ _ _ H) as [[_ []]|(ac' & Hc' & Au & Ht & Hx)].
    assert (ac' = ac) by (eapply carries_fun; eauto). subst ac'. rewrite Hb in Hx. destruct Hx as (_ & _ & m & Em). split; [exact Au|].
    destruct Hc; [congruence|reflexivity].
  - intros [Au Hw]. assert (M : exists m, unmarshal getMlsMessage raw = Ok (MPrivate m)) by (destruct Hc; [discriminate Hw|eauto]). destruct M as (m & M).
    exists g, (Some d). eapply data_accepted; eauto. constructor; auto. intros m' Hm'. congruence.
Qed.

Theorem nothing_else_accepted g raw now : (forall ac, ~ carries g raw ac) ->
  fst (unmarshalAndProcessMessage g raw now) = g /\ rejected (snd (unmarshalAndProcessMessage g raw now)).
Proof.
  intros H. destruct (unmarshalAndProcessMessage g raw now) as [g' r] eqn:E. destruct (acted_on_or _ _ _ _ _ E) as [A|(ac & Hc & _)]; [exact A|exfalso; exact (H _ Hc)].
Qed.
Theorem acceptable_commit_accepted g raw ac c li ps t' now : crypto_ok C -> obtained g -> known_suite (gc_cipherSuite (gr_context g)) ->
  carries g raw ac -> modest g ac -> authentic g ac -> tagged g raw -> acceptable_commit g ac c li ps -> valid_tree g c li ps t' ->
  exists g', accepts_commit g raw now ac c g' /\ gr_value g' = t'.
Proof.
  intros OK O Kn Hc Hm Au Ht V T. destruct (acceptable_accepted g raw ac c li ps t' now OK O Kn) as (g' & H & E); [constructor; auto|exact V|exact T|].
  exists g'. split; [|exact E]. split; [exact Hc|]. split; [apply V|exact H].
Qed.
Theorem blank_removal_accepted g raw ac c li ps t' now (r s : N) : crypto_ok C -> obtained g -> known_suite (gc_cipherSuite (gr_context g)) ->
  delivered g raw ac -> acceptable_commit g ac c li ps -> valid_tree g c li ps t' ->
  In (PRemove r, s) ps -> leaf_at (gr_value g) (designated r) = None ->
  exists g', accepts_commit g raw now ac c g' /\ gr_value g' = t'.
Proof.
  intros OK O Kn D V T _ _. destruct (delivered_received _ _ _ OK Kn D) as [R1 R2 R3 R4]. eapply acceptable_commit_accepted; eauto.
Qed.
End WithCrypto.
