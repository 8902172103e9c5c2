(** Bob commits a reinit proposal. *)
From Verif Require Export EndFacts CreateSamples Witness.

Definition w110reInit : reInit := mkReInit (str "next") 0 3 [].
Definition w110raw : bytes := Eval vm_compute in
  getOr [] (@sendPublic toy gb 1 (BCommit (mkCommit [PorProposal (PReInit w110reInit)] None)) [] (str "tag")).
Definition w110 := Eval vm_compute in getSome (noMessage, noCommit, noGroup) (acceptedPublic ga w110raw).
Lemma w110_accepted : acceptedPublic ga w110raw = Some w110.
Proof. vm_compute. reflexivity. Qed.

Lemma ga_signs : @can_sign toy ga.
Proof. destruct trio_together as (e & _ & F). apply Forall_inv in F. apply F. Qed.
