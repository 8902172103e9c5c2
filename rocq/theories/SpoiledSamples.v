(** Carol proposes an update that is not signed, Bob commits it, and Alice can
    invite Dave in vain. *)
From Verif Require Export SpoiledFacts ReferenceSamples CommitTreeSamples OriginSamples EndSamples JoinSamples.
From Coq Require Import Lia.

Definition spoiledLeaf : leafNode := Eval vm_compute in
  let l := kp_leafNode (kpp_public carol) in
  mkLeafNode (pad 32 (str "a new key")) (ln_signatureKey l) (ln_credential l) (ln_capabilities l) 2 None [] [] (str "not a signature").
Definition prop121 : bytes := Eval vm_compute in getOr [] (@sendPublic toy gc 2 (BProposal (PUpdate spoiledLeaf)) (str "s") []).
Definition gb121 : group := Eval vm_compute in hear gb prop121.
Definition ga121 : group := Eval vm_compute in hear ga prop121.
Definition pp121 : pendingProposal := Eval vm_compute in hd (mkPendingProposal [] (PRemove 0) 0) (gr_pending gb121).
Definition commit121 : bytes := Eval vm_compute in
  getOr [] (@sendPathCommit toy gb121 1 [PorReference (pp_ref pp121)] [] (pad 32 (str "new leaf")) [] (pad 32 (str "seed")) (str "r")).
Definition w121 := Eval vm_compute in getSome (noMessage, noCommit, noGroup) (acceptedPublic ga121 commit121).
Lemma w121_accepted : acceptedPublic ga121 commit121 = Some w121.
Proof. vm_compute. reflexivity. Qed.
Lemma ga121_obtained : @obtained toy ga121.
Proof. replace ga121 with (hear ga prop121); [exact (obtained_hear _ _ ga_obtained)|vm_compute; reflexivity]. Qed.
Lemma ga121_accepts : @accepts_commit toy ga121 commit121 clock (publicContent (fst (fst w121))) (snd (fst w121)) (snd w121).
Proof. apply acceptedPublic_commit. rewrite w121_accepted. now destruct w121 as [[? ?] ?]. Qed.
Definition invite121 (g : group) := @createWelcome toy g [kpp_public dave] [] [] [str "z"] (str "efgh").
Definition before121 : welcome := Eval vm_compute in match snd (invite121 ga121) with Ok (w, _) => w | _ => noWelcome end.
Definition after121 : welcome := Eval vm_compute in match snd (invite121 (snd w121)) with Ok (w, _) => w | _ => noWelcome end.
Definition late121 : group := Eval vm_compute in getOr noGroup (@groupFromWelcome toy before121 dave clock).
Lemma invited121 g w : match snd (invite121 g) with Ok (x, _) => x = w | _ => False end -> exists g1 raw, invite121 g = (g1, Ok (w, raw)).
Proof. destruct (invite121 g) as [g1 [[x raw]|?|?|]]; cbn [snd]; intros H; try contradiction H. subst x. eauto. Qed.

Lemma unsigned121 : @unsigned_leaf toy (snd w121) 2.
Proof.
  exists spoiledLeaf. split; [vm_compute; reflexivity|]. intros H. apply leafNodeVerifySignature_spec in H. vm_compute in H. discriminate H.
Qed.
Lemma signed121 i : ~ @unsigned_leaf toy ga121 i.
Proof.
  assert (A : @all_signed toy (gc_cipherSuite (gr_context ga121)) (gc_groupID (gr_context ga121)) (gr_value ga121)).
  { apply all_signed_by; [exact (sane_shape _ (obtained_sane _ ga121_obtained))|]. vm_compute. reflexivity. }
  intros (l & Hl & N). apply N. exact (A _ _ Hl).
Qed.

Theorem dave_invited_in_vain : exists (C : crypto) g raw now ac c g' li i kps rs ri rh rg kpp,
  crypto_ok C /\ obtained g /\ accepts_commit g raw now ac c g' /\ fc_sender (ac_content ac) = SMember li /\
  (forall j, ~ unsigned_leaf g j) /\ unsigned_leaf g' i /\
  In (kpp_public kpp) kps /\
  (exists g1 w raw1 j, createWelcome g kps rs ri rh rg = (g1, Ok (w, raw1)) /\ groupFromWelcome w kpp now = Ok j) /\
  (exists g1 w raw1 e, createWelcome g' kps rs ri rh rg = (g1, Ok (w, raw1)) /\ groupFromWelcome w kpp now = Err e).
Proof.
  exists toy, ga121, commit121, clock, (publicContent (fst (fst w121))), (snd (fst w121)), (snd w121), 1, 2, [kpp_public dave], [], [], [str "z"], (str "efgh"), dave.
  split; [exact toy_ok|]. split; [exact ga121_obtained|]. split; [exact ga121_accepts|]. split; [vm_compute; reflexivity|].
  split; [exact signed121|]. split; [exact unsigned121|]. split; [now left|]. split.
  - destruct (invited121 ga121 before121) as (g1 & raw & E); [vm_compute; reflexivity|]. exists g1, before121, raw, late121. split; [exact E|]. vm_compute. reflexivity.
  - destruct (invited121 (snd w121) after121) as (g1 & raw & E); [vm_compute; reflexivity|].
    exists g1, after121, raw. eexists. split; [exact E|]. vm_compute. reflexivity.
Qed.

Lemma spoiled_example : @unsigned_leaf toy (snd w121) 2 /\ later_than_1970 clock /\ @groupFromWelcome toy before121 dave clock = Ok late121.
Proof. split; [exact unsigned121|]. split; [exact clock_later|]. vm_compute. reflexivity. Qed.
Lemma removal_example :
  exists ac c g', @obtained toy ga /\ @accepts_commit toy ga w53pathRaw clock ac c g' /\ fc_sender (ac_content ac) = SMember 1 /\
    commits ga 1 c [(PAdd (kpp_public dave), 1); (PRemove 2, 1)] /\ In 2 (removalsOf [(PAdd (kpp_public dave), 1); (PRemove 2, 1)]) /\
    leaf_at (gr_value g') 2 = Some (kp_leafNode (kpp_public dave)).
Proof.
  destruct commit_tree_example as (ac & c & g' & up & H1 & H2 & H3 & H4 & _ & _ & _ & _ & H5). exists ac, c, g'. splits; auto. vm_compute. now left.
Qed.
Lemma invited_example : exists g1 raw,
  @lawful toy ga /\ ends_with_member (gr_value ga) /\ wf_keyPackage (kpp_public dave) /\ invite121 ga = (g1, Ok (before121, raw)) /\
  NoDup (welcomeNewMembers before121) /\ @holds_private_keys toy dave /\ kp_cipherSuite (kpp_public dave) = gc_cipherSuite (gr_context ga) /\
  @can_sign toy ga /\ lists_once (gr_value late121) /\ @groupFromWelcome toy before121 dave clock = Ok late121.
Proof.
  destruct (invited121 ga before121) as (g1 & raw & E); [vm_compute; reflexivity|]. exists g1, raw. split; [exact ga_lawful|].
  split; [right; exists 2; split; [vm_compute; discriminate|vm_compute; discriminate]|]. split; [exact dave_wf|]. split; [exact E|].
  split; [apply distinctBytes_ok; vm_compute; reflexivity|]. split; [exact (Forall_inv (proj2 dave_may_join))|]. split; [vm_compute; reflexivity|].
  split; [exact ga_signs|]. split; [apply lists_once_by; vm_compute; reflexivity|]. vm_compute. reflexivity.
Qed.
