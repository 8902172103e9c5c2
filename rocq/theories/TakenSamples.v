(** Carol takes Alice's name, with an update that Bob commits. *)
From Verif Require Export TakenFacts ReferenceSamples.

Definition takenLeaf : leafNode := Eval vm_compute in
  let l := kp_leafNode (kpp_public carol) in
  getOr l (@leafNodeSign toy 1 (gc_groupID (gr_context gc)) 2 (gr_signaturePriv gc) []
    (mkLeafNode (pad 32 (str "a new key")) (ln_signatureKey l) (ln_credential (kp_leafNode (kpp_public alice))) (ln_capabilities l) 2 None [] [] [])).
Definition keptLeaf : leafNode := Eval vm_compute in
  let l := kp_leafNode (kpp_public carol) in
  getOr l (@leafNodeSign toy 1 (gc_groupID (gr_context gc)) 2 (gr_signaturePriv gc) []
    (mkLeafNode (pad 32 (str "a new key")) (ln_signatureKey l) (ln_credential l) (ln_capabilities l) 2 None [] [] [])).
Definition prop122 : bytes := Eval vm_compute in getOr [] (@sendPublic toy gc 2 (BProposal (PUpdate takenLeaf)) (str "s") []).
Definition gb122 : group := Eval vm_compute in hear gb prop122.
Definition ga122 : group := Eval vm_compute in hear ga prop122.
Definition pp122 : pendingProposal := Eval vm_compute in hd (mkPendingProposal [] (PRemove 0) 0) (gr_pending gb122).
Definition commit122 : bytes := Eval vm_compute in
  getOr [] (@sendPathCommit toy gb122 1 [PorReference (pp_ref pp122)] [] (pad 32 (str "new leaf")) [] (pad 32 (str "seed")) (str "r")).
Definition w122 := Eval vm_compute in getSome (noMessage, noCommit, noGroup) (acceptedPublic ga122 commit122).
Lemma w122_accepted : acceptedPublic ga122 commit122 = Some w122.
Proof. vm_compute. reflexivity. Qed.
Lemma ga122_obtained : @obtained toy ga122.
Proof. replace ga122 with (hear ga prop122); [exact (obtained_hear _ _ ga_obtained)|vm_compute; reflexivity]. Qed.
Lemma ga122_accepts : @accepts_commit toy ga122 commit122 clock (publicContent (fst (fst w122))) (snd (fst w122)) (snd w122).
Proof. apply acceptedPublic_commit. rewrite w122_accepted. now destruct w122 as [[? ?] ?]. Qed.

Theorem name_taken : exists (C : crypto) g raw now ac c g' li i j l m m',
  crypto_ok C /\ obtained g /\ accepts_commit g raw now ac c g' /\ fc_sender (ac_content ac) = SMember li /\ gr_myLeafIndex g = i /\
  leaf_at (gr_value g) i = Some l /\ leaf_at (gr_value g) j = Some m /\ ln_credential m <> ln_credential l /\
  leaf_at (gr_value g') i = Some l /\ leaf_at (gr_value g') j = Some m' /\ ln_credential m' = ln_credential l /\ ln_signatureKey m' = ln_signatureKey m.
Proof.
  exists toy, ga122, commit122, clock, (publicContent (fst (fst w122))), (snd (fst w122)), (snd w122), 1, 0, 2,
    (kp_leafNode (kpp_public alice)), (kp_leafNode (kpp_public carol)), takenLeaf.
  split; [exact toy_ok|]. split; [exact ga122_obtained|]. split; [exact ga122_accepts|]. split; [vm_compute; reflexivity|]. split; [vm_compute; reflexivity|].
  split; [vm_compute; reflexivity|]. split; [vm_compute; reflexivity|]. split; [vm_compute; discriminate|].
  split; [vm_compute; reflexivity|]. split; [vm_compute; reflexivity|]. split; vm_compute; reflexivity.
Qed.

Lemma names_example : renamed keptLeaf takenLeaf /\ ln_credential takenLeaf <> ln_credential keptLeaf /\
  @leafNodeVerifySignature toy 1 (gc_groupID (gr_context gc)) 2 keptLeaf = Ok true /\ @leafNodeVerifySignature toy 1 (gc_groupID (gr_context gc)) 2 takenLeaf = Ok true /\
  @obtained toy ga122 /\ exists ac c, @accepts_commit toy ga122 commit122 clock ac c (snd w122) /\ fc_sender (ac_content ac) = SMember 1 /\
    leaf_at (gr_value ga122) 2 = Some (kp_leafNode (kpp_public carol)) /\ leaf_at (gr_value (snd w122)) 2 = Some takenLeaf.
Proof.
  split; [constructor; vm_compute; reflexivity|]. split; [vm_compute; discriminate|]. split; [vm_compute; reflexivity|]. split; [vm_compute; reflexivity|].
  split; [exact ga122_obtained|]. eexists. eexists. split; [exact ga122_accepts|]. split; [vm_compute; reflexivity|]. split; vm_compute; reflexivity.
Qed.
