(** Carol proposes an update that keeps the encryption key, which Bob commits;
    and Bob and Carol commit one after the other with paths of the same seed. *)
From Verif Require Export FreshFacts ReferenceSamples.
From Coq Require Import Lia.

(** *** The update *)
Definition carolLeaf : leafNode := Eval vm_compute in match leaf_at (gr_value qc) 2 with Some l => l | None => kp_leafNode (kpp_public carol) end.
Definition staleLeaf : leafNode := Eval vm_compute in
  getOr carolLeaf (@leafNodeSign toy 1 (gc_groupID (gr_context qc)) 2 (gr_signaturePriv qc) []
    (mkLeafNode (ln_encryptionKey carolLeaf) (ln_signatureKey carolLeaf) (ln_credential carolLeaf) (ln_capabilities carolLeaf) 2 None [] [] [])).
Definition prop120 : bytes := Eval vm_compute in getOr [] (@sendPublic toy qc 2 (BProposal (PUpdate staleLeaf)) (str "s") []).
Definition qb120 : group := Eval vm_compute in hear qb prop120.
Definition qa120 : group := Eval vm_compute in hear qa prop120.
Definition pp120 : pendingProposal := Eval vm_compute in hd (mkPendingProposal [] (PRemove 0) 0) (gr_pending qb120).
Definition commit120 : bytes := Eval vm_compute in
  getOr [] (@sendPathCommit toy qb120 1 [PorReference (pp_ref pp120)] [] (pad 32 (str "new leaf")) [] (pad 32 (str "seed")) (str "r")).
Definition w120 := Eval vm_compute in getSome (noMessage, noCommit, noGroup) (acceptedPublic qa120 commit120).
Lemma w120_accepted : acceptedPublic qa120 commit120 = Some w120.
Proof. vm_compute. reflexivity. Qed.
Lemma qa120_obtained : @obtained toy qa120.
Proof. replace qa120 with (hear qa prop120); [exact (obtained_hear _ _ qa_obtained)|vm_compute; reflexivity]. Qed.

Theorem stale_update : exists (C : crypto) g raw now ac c g' li ps s l l',
  crypto_ok C /\ obtained g /\ accepts_commit g raw now ac c g' /\ fc_sender (ac_content ac) = SMember li /\ commits g li c ps /\
  In (PUpdate l', s) ps /\ leaf_at (gr_value g) s = Some l /\ leaf_at (gr_value g') s = Some l' /\
  leaf_signed (gc_cipherSuite (gr_context g)) (gc_groupID (gr_context g)) s l' /\ ln_source l' = 2 /\ l' <> l /\ ln_encryptionKey l' = ln_encryptionKey l.
Proof.
  exists toy, qa120, commit120, clock, (publicContent (fst (fst w120))), (snd (fst w120)), (snd w120), 1, [(PUpdate staleLeaf, 2)], 2, carolLeaf, staleLeaf.
  split; [exact toy_ok|]. split; [exact qa120_obtained|].
  split; [apply acceptedPublic_commit; rewrite w120_accepted; now destruct w120 as [[? ?] ?]|].
  split; [vm_compute; reflexivity|]. split; [apply (proj1 (resolveProposals_spec _ _ _ _)); vm_compute; reflexivity|].
  split; [now left|]. split; [vm_compute; reflexivity|]. split; [vm_compute; reflexivity|].
  split; [apply leafNodeVerifySignature_spec; vm_compute; reflexivity|]. split; [vm_compute; reflexivity|]. split; [vm_compute; discriminate|vm_compute; reflexivity].
Qed.

(** *** The paths *)
Definition bob120 : bytes := Eval vm_compute in getOr [] (@sendPathCommit toy qb 1 [] [] (pad 32 (str "new leaf")) [] (pad 32 (str "seed")) (str "r")).
Definition sa120 : group := Eval vm_compute in hear qa bob120.
Definition sc120 : group := Eval vm_compute in hear qc bob120.
Definition carol120 : bytes := Eval vm_compute in getOr [] (@sendPathCommit toy sc120 2 [] [] (pad 32 (str "another leaf")) [] (pad 32 (str "seed")) (str "r")).
Definition v120 := Eval vm_compute in getSome (noMessage, noCommit, noGroup) (acceptedPublic sa120 carol120).
Lemma v120_accepted : acceptedPublic sa120 carol120 = Some v120.
Proof. vm_compute. reflexivity. Qed.
Lemma sa120_obtained : @obtained toy sa120.
Proof. replace sa120 with (hear qa bob120); [exact (obtained_hear _ _ qa_obtained)|vm_compute; reflexivity]. Qed.
Lemma v120_commit : @accepts_commit toy sa120 carol120 clock (publicContent (fst (fst v120))) (snd (fst v120)) (snd v120).
Proof. apply acceptedPublic_commit. rewrite v120_accepted. now destruct v120 as [[? ?] ?]. Qed.
Definition rootKey (t : ratchetTree) : bytes := match at_path 2 t [] with Some (NParent pn) => pn_encryptionKey pn | _ => [] end.
Definition path120 : updatePath := Eval vm_compute in getSome (mkUpdatePath carolLeaf []) (c_path (snd (fst v120))).

Theorem stale_path : exists (C : crypto) g raw now ac c g' li up k p key,
  crypto_ok C /\ obtained g /\ accepts_commit g raw now ac c g' /\ fc_sender (ac_content ac) = SMember li /\ c_path c = Some up /\
  shaped k (gr_value g) /\ shaped k (gr_value g') /\ above p (leafPath k li) /\
  In key (pathKeys up) /\ parent_with_key k (gr_value g) p key /\ parent_with_key k (gr_value g') p key.
Proof.
  exists toy, sa120, carol120, clock, (publicContent (fst (fst v120))), (snd (fst v120)), (snd v120), 2, path120, 2%nat, [], (rootKey (gr_value sa120)).
  split; [exact toy_ok|]. split; [exact sa120_obtained|]. split; [exact v120_commit|]. split; [vm_compute; reflexivity|]. split; [vm_compute; reflexivity|].
  split; [apply shapedb_ok; [unfold fits; lia|vm_compute; reflexivity]|]. split; [apply shapedb_ok; [unfold fits; lia|vm_compute; reflexivity]|].
  split; [exists true, [false]; vm_compute; reflexivity|]. split; [right; right; left; vm_compute; reflexivity|].
  split; eexists; split; vm_compute; reflexivity.
Qed.

Lemma fresh_example : exists ac c g' l up,
  @obtained toy sa120 /\ @accepts_commit toy sa120 carol120 clock ac c g' /\ fc_sender (ac_content ac) = SMember 2 /\ commits sa120 2 c [] /\ indices_below 2 [] /\
  c_path c = Some up /\ lenN (up_nodes up) = 2 /\ leaf_at (gr_value sa120) 2 = Some l /\ leaf_at (gr_value g') 2 = Some (up_leafNode up).
Proof.
  exists (publicContent (fst (fst v120))), (snd (fst v120)), (snd v120), carolLeaf, path120. split; [exact sa120_obtained|]. split; [exact v120_commit|].
  split; [vm_compute; reflexivity|]. split; [vm_compute; constructor|]. split; [intros i [<-|[]]; lia|]. split; [vm_compute; reflexivity|].
  split; [vm_compute; reflexivity|]. split; vm_compute; reflexivity.
Qed.
