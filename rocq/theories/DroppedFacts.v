(** Proofs that received proposals are not minded (C126). *)
From Coq Require Import Lia.
From Verif Require Export AnonFacts SpoiledFacts CreateFacts FoundFacts.

Section WithCrypto.
Context {C : crypto}.
Theorem sent_despite_removal g m pp data rs rg now : crypto_ok C -> compact C -> obtained g -> can_sign g ->
  In pp (gr_pending g) -> pp_proposal pp = PRemove (gr_myLeafIndex m) -> same_epoch g m ->
  lenN rg = 4 -> lenN (enc_groupContext (gr_context g)) + lenN data < 2 ^ 26 ->
  exists raw, createApplicationMessage g data rs rg = Ok raw /\ unmarshalAndProcessMessage m raw now = (m, Ok (Some data)).
Proof.
  intros HC Cp O Cs _ _ E L Z. destruct (application_total HC Cp g data rs rg O Cs L Z) as (raw & H). exists raw. split; [exact H|].
  eapply message_outcome; eauto.
Qed.
Theorem dropped_by_invitation g kps rs ri rh rg g1 w raw m pp r l now : crypto_ok C -> obtained g -> can_sign g -> lenN rg = 4 ->
  Forall wf_keyPackage kps -> Forall (addable (gr_context g)) kps -> NoDup (map (fun k => ln_signatureKey (kp_leafNode k)) kps) ->
  createWelcome g kps rs ri rh rg = (g1, Ok (w, raw)) -> obtained m -> agree g m ->
  In pp (gr_pending g) -> In pp (gr_pending m) -> pp_proposal pp = PRemove r -> leaf_at (gr_value m) r = Some l ->
  exists m', unmarshalAndProcessMessage m raw now = (m', Ok None) /\ gr_pending m' = [] /\ leaf_at (gr_value m') r = Some l.
Proof.
  intros HC O Cs L Wk Ad Nd H Om Ag _ _ _ Hl. pose proof (obtained_sane _ O) as Sa. pose proof (sane_consistent _ Sa) as Hc.
  destruct (createWelcome_parts _ _ _ _ _ _ _ _ _ HC (proj1 Hc) H) as (Hne & _ & e & sg & tag & joiner & W).
  destruct (commit_processed g kps rs ri rh rg w raw e sg tag joiner m now) as (m' & H1 & H2 & _ & _ & _ & H3); auto; try apply Sa.
  { apply sane_consistent, obtained_sane, Om. }
  exists m'. split; [exact H1|]. split; [exact H3|]. destruct H2 as (-> & _).
  destruct W as [Ht _ _ _ _ _ _ _ _ _]. pose proof (sane_shape _ Sa) as Ws. set (ps := map (fun k => (PAdd k, gr_myLeafIndex g)) kps).
  assert (P1 : map fst ps = map PAdd kps) by (unfold ps; now rewrite map_map).
  assert (P3 : updatesOf ps = [] /\ removalsOf ps = []) by (unfold ps, updatesOf, removalsOf; clear; induction kps as [|k kps IH]; cbn; auto).
  destruct P3 as [P3 P4].
  assert (AP : after_proposals (gr_value g) ps (ed_tree e)). { apply vapply_one_by_one; [exact Ws|]. rewrite P1, adds_only, <- (adds_only _ _ [gr_myLeafIndex g]). exact Ht. }
  destruct AP as (t1 & t2 & A1 & A2 & A3). rewrite P3 in A1. rewrite P4 in A2. inversion A1; subst t1. inversion A2; subst t2.
  eapply all_joined_keep_leaf; [exact A3|]. destruct Ag as (_ & Ev & _). now rewrite <- Ev.
Qed.

Lemma stands_in li pending cs ps r : Forall2 (stands_for li pending) cs ps -> In (PorReference r) cs ->
  exists pp, In pp pending /\ pp_ref pp = r /\ In (pp_proposal pp, pp_sender pp) ps.
Proof.
  intros H. induction H as [|x y cs ps S _ IH]; intros Hin; [destruct Hin|]. destruct Hin as [->|Hin].
  - destruct S as (pp & F & E). exists pp.
    destruct F as (l1 & l2 & E1 & E2 & _). rewrite E1. splits; [apply in_or_app; right; left; reflexivity|exact E2|left; exact E].
  - destruct (IH Hin) as (pp & I1 & I2 & I3). exists pp. splits; auto. now right.
Qed.
Theorem referenced_removals g raw now ac c g' li ps pp r l' : obtained g -> accepts_commit g raw now ac c g' ->
  fc_sender (ac_content ac) = SMember li -> commits g li c ps ->
  In pp (gr_pending g) -> (forall pp', In pp' (gr_pending g) -> pp_ref pp' = pp_ref pp -> pp' = pp) ->
  In (PorReference (pp_ref pp)) (c_proposals c) -> pp_proposal pp = PRemove r -> designated r <> designated li ->
  leaf_at (gr_value g') (designated r) = Some l' -> In l' (additionsOf ps).
Proof.
  intros O A Hs Hc Hin Hu Href Hp Hn Hl. destruct (stands_in _ _ _ _ _ Hc Href) as (pp' & I1 & I2 & I3).
  assert (pp' = pp) by (now apply Hu). subst pp'. rewrite Hp in I3.
  eapply removal_heals; eauto. unfold removalsOf. apply in_flat_map. exists (PRemove r, pp_sender pp). split; [exact I3|]. left. reflexivity.
Qed.
End WithCrypto.
