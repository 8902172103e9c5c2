(** Messages that have to be accepted. *)
From Verif Require Export AcceptFacts HoldSamples IntegritySamples.

Definition encodableb (t : ratchetTree) : bool :=
  forallb (fun o => match o with Some n => match putNode n with Ok _ => true | _ => false end | None => true end) t.
Lemma encodableb_ok t : encodableb t = true -> encodable t.
Proof.
  unfold encodableb. rewrite forallb_forall. intros H n Hin. specialize (H _ Hin). cbn in H. destruct (putNode n) as [e| | |]; try discriminate. eauto.
Qed.

(** Bob removes Dave. *)
Definition ac74 : authenticatedContent := Eval vm_compute in publicContent (fst (fst w50)).
Definition c74 : commit := Eval vm_compute in snd (fst w50).
Lemma accepts74 : @accepts_commit toy qa w50raw clock ac74 c74 (snd w50).
Proof.
  assert (H : acceptedPublic qa w50raw = Some (fst (fst w50), c74, snd w50)) by (vm_compute; reflexivity).
  exact (acceptedPublic_commit qa w50raw (fst (fst w50)) c74 (snd w50) H).
Qed.
Lemma delivered74 : @delivered toy qa w50raw ac74.
Proof.
  constructor.
  - unfold ac74. apply made_public. vm_compute. reflexivity.
  - eapply (carries_content_wf (C := toy)). apply accepts74.
  - destruct accepts74 as (Hc & Hb & H). apply acted_on_or in H. destruct H as [[_ []]|(ac' & Hc' & Hau & _)].
    rewrite (carries_fun (C := toy) _ _ _ _ Hc Hc'). exact Hau.
  - vm_compute. reflexivity.
  - vm_compute. reflexivity.
Qed.
Lemma commit74 : @valid_commit toy qa ac74 c74 1 [(PRemove 3, 1)].
Proof.
  constructor.
  - reflexivity.
  - reflexivity.
  - apply (proj1 (resolveProposals_spec _ _ _ _)). vm_compute. reflexivity.
  - unfold proposal_rule. cbn [addedKeys changedLeaves pskIds extensionProposals flat_map fst snd app length]. splits.
    + constructor.
    + constructor; [intros []|constructor].
    + intros [E|[]]; discriminate E.
    + constructor.
    + apply Nat.le_0_l.
    + intros r s [E|[]]; discriminate E.
    + intros k s [E|[]]; discriminate E.
  - constructor.
  - intros k s [E|[]]; discriminate E.
  - intros r s [E|[]]. injection E as <- <-. vm_compute. discriminate.
  - exists 4. split; [|vm_compute; discriminate]. exists [0; 1; 2; 3]. split; [vm_compute; discriminate|]. intros j Hj.
    assert (Hr : j < leaf_count 2) by (eapply member_in_array; [apply shapedb_ok; [unfold fits; lia|]|exact Hj]; vm_compute; reflexivity).
    change (leaf_count 2) with 4 in Hr. assert (j = 0 \/ j = 1 \/ j = 2 \/ j = 3) as [->|[->|[->| ->]]] by lia; cbn; auto.
  - vm_compute. discriminate.
Qed.
Lemma tree74 : @valid_tree toy qa c74 1 [(PRemove 3, 1)] (gr_value (snd w50)).
Proof.
  destruct prescribed50r as (AP & Sh & LM & z & UP).
  destruct (tree_after_commit (C := toy) _ _ _ _ _ _ _ _ qa_obtained accepts74 eq_refl (vc_proposals _ _ _ _ _ commit74)) as (t & AP' & P).
  rewrite (after_proposals_fun _ _ _ _ AP' AP) in P. unfold valid_tree.
  change (c_path c74) with (c_path (snd (fst w50))) in *. rewrite path50r in *. destruct P as (Ck & k & Sk & Sk' & _).
  rewrite (height_unique k 2 _ (shaped_full _ _ Sk) (shaped_full _ _ Sh)) in Sk'.
  exists 2%nat, t50r, []. split.
  - constructor; auto.
    + apply lists_once_by. vm_compute. reflexivity.
    + exists z. exact UP.
    + split; [apply encodableb_ok; vm_compute; reflexivity|]. split; [apply encodableb_ok; vm_compute; reflexivity|].
      repeat (constructor; [vm_compute; reflexivity|]). constructor.
  - split; [vm_compute; discriminate|]. split; [exact qa_holds|]. split; [vm_compute; reflexivity|]. intros u a [].
Qed.
Lemma accept_example : crypto_ok toy /\ @obtained toy qa /\ known_suite (gc_cipherSuite (gr_context qa)) /\
  exists ac c t', @delivered toy qa w50raw ac /\ @valid_commit toy qa ac c 1 [(PRemove 3, 1)] /\ @valid_tree toy qa c 1 [(PRemove 3, 1)] t' /\
    c_path c <> None /\ t' <> gr_value qa.
Proof.
  split; [exact toy_ok|]. split; [exact qa_obtained|]. split; [eexists; vm_compute; reflexivity|].
  exists ac74, c74, (gr_value (snd w50)). split; [exact delivered74|]. split; [exact commit74|]. split; [exact tree74|]. split; vm_compute; discriminate.
Qed.

(** Bob says hello in a private message. *)
Definition m74 : privateMessage := Eval vm_compute in
  match unmarshal getMlsMessage w35raw with Ok (MPrivate m) => m | _ => mkPrivateMessage [] 0 0 [] [] [] end.
Definition pc74 : privateMessageContent := Eval vm_compute in
  match @openPrivateMessage toy ga m74 with Ok ac => mkPrivateMessageContent (fc_body (ac_content ac)) (ac_auth ac) | _ => mkPrivateMessageContent (BApplication []) (mkAuthData [] []) end.
Definition hello74 : framedContent := mkFramedContent (str "grp") (gc_epoch (gr_context ga)) (SMember 1) [] (BApplication (str "hello")).
Lemma data_delivered : @delivered toy ga w35raw (mkAuthenticatedContent 2 hello74 (pmc_auth pc74)).
Proof.
  assert (Er : unmarshal getMlsMessage w35raw = Ok (MPrivate m74)) by (vm_compute; reflexivity).
  assert (Eo : @openPrivateMessage toy ga m74 = Ok (mkAuthenticatedContent 2 hello74 (pmc_auth pc74))) by (vm_compute; reflexivity).
  destruct (openPrivateMessage_ok (C := toy) _ _ _ _ Er Eo) as [Hc Hau].
  constructor.
  - apply (made_private ga w35raw hello74 (pmc_auth pc74) 2 (mkSenderData 1 0 (str "efgh")) 0 m74).
    + apply shapedb_ok; [unfold fits; lia|vm_compute; reflexivity].
    + vm_compute. reflexivity.
    + splits; vm_compute; reflexivity.
    + constructor; vm_compute; reflexivity.
    + vm_compute. reflexivity.
  - exact (carries_content_wf (C := toy) _ _ _ Hc).
  - exact Hau.
  - vm_compute. reflexivity.
  - vm_compute. reflexivity.
Qed.
Lemma data_example : crypto_ok toy /\ known_suite (gc_cipherSuite (gr_context ga)) /\
  exists a, @delivered toy ga w35raw (mkAuthenticatedContent 2 hello74 a).
Proof. split; [exact toy_ok|]. split; [eexists; vm_compute; reflexivity|]. exists (pmc_auth pc74). exact data_delivered. Qed.
