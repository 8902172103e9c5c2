(** Bob can write to the group of Alice, Bob and Carol, and invite Dave. *)
From Verif Require Export CreateFacts AcceptSamples InviteSamples.

Lemma toy_compact : compact toy.
Proof.
  constructor.
  - intros alg priv rnd m s H. cbn [cr_sign toy] in H. injection H as <-. unfold toySig. now rewrite toyDigest_len.
  - intros alg rnd. cbn [cr_sigKeyPair toy fst]. rewrite pad_len. destruct alg; reflexivity.
  - intros kem rnd. cbn [cr_generateKeyPair toy fst]. rewrite pad_len. destruct kem; reflexivity.
Qed.

Lemma gb_signs : @can_sign toy gb.
Proof. destruct trio_together as (e & _ & F). apply Forall_inv_tail, Forall_inv in F. apply F. Qed.

Definition withDave : ratchetTree := Eval vm_compute in getOr [] (vapply (gr_value gb) [PAdd (kpp_public dave)] [gr_myLeafIndex gb]).
Lemma withDave_is : vapply (gr_value gb) [PAdd (kpp_public dave)] [gr_myLeafIndex gb] = Ok withDave.
Proof. vm_compute. reflexivity. Qed.

Lemma dave_invited : @can_invite toy gb [kpp_public dave].
Proof.
  destruct dave_generated as [(cred & t0 & t1 & r1 & r2 & r3 & r4 & r5 & H1 & H2 & H) _].
  assert (Wc : wf_credential cred) by (left; auto).
  destruct (generated_valid (C := toy) 1 cred t0 t1 r1 r2 r3 r4 r5 dave toy_ok eq_refl Wc H) as (W & Hc & _ & _ & _ & _ & (d & Hd & P & _) & _).
  constructor.
  - discriminate.
  - intros k [<-|[]]. split; [exact W|]. split; [exact Hc|]. exists d, (kpp_initKey dave). split; [|exact P]. rewrite suite_eq. rewrite Hc in Hd. exact Hd.
  - destruct trio_together as (e & _ & F). apply Forall_inv_tail, Forall_inv in F. destruct F as [_ F]. destruct (io_tree _ F) as (k & St). apply St.
  - exists 3. split; [|vm_compute; discriminate]. exists [0; 1; 2]. split; [vm_compute; discriminate|]. intros j Hj.
    assert (Hlt : j < 4).
    { destruct (N.lt_ge_cases j 4) as [X|X]; [exact X|]. exfalso. apply Hj. unfold leaf_at. replace (nth_error (gr_value gb) (N.to_nat (2 * j))) with (@None (option node)); [reflexivity|].
      symmetry. apply nth_error_None. replace (length (gr_value gb)) with 7%nat by (vm_compute; reflexivity). lia. }
    destruct (N.eq_dec j 3) as [->|Hne]; [exfalso; apply Hj; vm_compute; reflexivity|].
    assert (E : j = 0 \/ j = 1 \/ j = 2) by lia. cbn. intuition.
  - vm_compute. reflexivity.
  - intros t AP. assert (AP' : after_proposals (gr_value gb) [(PAdd (kpp_public dave), gr_myLeafIndex gb)] withDave).
    { apply vapply_one_by_one; [exact (sane_shape _ (obtained_sane gb gb_obtained))|exact withDave_is]. }
    change (map (fun k => (PAdd k, gr_myLeafIndex gb)) [kpp_public dave]) with [(PAdd (kpp_public dave), gr_myLeafIndex gb)] in AP.
    rewrite (after_proposals_fun _ _ _ _ AP AP'). vm_compute. reflexivity.
Qed.
