(** Alice and Carol accept Bob's commit, and Alice hears what Carol says; had
    Alice accepted another commit, they would not. *)
From Verif Require Export ForkFacts OriginSamples.

Definition w103 := Eval vm_compute in getSome (noMessage, noCommit, noGroup) (acceptedPublic gc w55raw).
Lemma w103_accepted : acceptedPublic gc w55raw = Some w103.
Proof. vm_compute. reflexivity. Qed.
Definition w103raw : bytes := Eval vm_compute in getOr [] (@createApplicationMessage toy carolAfterPath (str "hello") [] (str "efgh")).
Definition carolSays : call := CallMessage carolAfterPath (str "hello") [] (str "efgh").

Lemma carolAfterPath_lawful : @lawful toy carolAfterPath.
Proof. replace carolAfterPath with (hear gc w55raw); [exact (lawful_hear _ _ gc_lawful)|vm_compute; reflexivity]. Qed.

Lemma carol_vouched : @vouched toy (eq carolSays) (gr_signaturePriv carolAfterPath)
  (SignFramedContent 2 (member_content carolAfterPath (BApplication (str "hello"))) (gr_context aliceAfterPath)).
Proof.
  assert (Ec : gr_context carolAfterPath = gr_context aliceAfterPath) by (vm_compute; reflexivity). rewrite <- Ec.
  assert (E1 : @createApplicationMessage toy carolAfterPath (str "hello") [] (str "efgh") = Ok w103raw) by (vm_compute; reflexivity).
  exact (application_vouched (C := toy) (eq carolSays) carolAfterPath (str "hello") [] (str "efgh") w103raw carolAfterPath_lawful E1 eq_refl).
Qed.
Lemma alice_log : exists e, @commit_log toy ga [(w55raw, clock)] [e].
Proof. eexists. eapply cl_commit; [apply acceptedPublic_commit, w55_accepted|constructor]. Qed.
Lemma carol_log : exists e, @commit_log toy gc [(w55raw, clock)] [e].
Proof. eexists. eapply cl_commit; [apply acceptedPublic_commit, w103_accepted|constructor]. Qed.
Lemma other_log : exists e, @commit_log toy ga [(w46raw, clock)] [e].
Proof. eexists. eapply cl_commit; [apply acceptedPublic_commit, w46_accepted|constructor]. Qed.

Lemma fork_example :
  crypto_ok toy /\ @lawful toy ga /\ @lawful toy gc /\ agree gc ga /\
  (exists e, @commit_log toy ga [(w55raw, clock)] [e]) /\ (exists e, @commit_log toy gc [(w55raw, clock)] [e]) /\
  @after toy ga [(w55raw, clock)] = aliceAfterPath /\ @after toy gc [(w55raw, clock)] = carolAfterPath /\
  @unmarshalAndProcessMessage toy aliceAfterPath w103raw clock = (aliceAfterPath, Ok (Some (str "hello"))) /\
  @vouched toy (eq carolSays) (gr_signaturePriv carolAfterPath)
    (SignFramedContent 2 (member_content carolAfterPath (BApplication (str "hello"))) (gr_context aliceAfterPath)) /\
  (exists e, @commit_log toy ga [(w46raw, clock)] [e]) /\
  gr_context (@after toy ga [(w46raw, clock)]) <> gr_context carolAfterPath /\
  (let g := @after toy ga [(w46raw, clock)] in exists e, @unmarshalAndProcessMessage toy g w103raw clock = (g, Err e)).
Proof.
  split; [exact toy_ok|]. split; [exact ga_lawful|]. split; [exact gc_lawful|]. split; [repeat split; vm_compute; reflexivity|].
  split; [exact alice_log|]. split; [exact carol_log|]. split; [vm_compute; reflexivity|]. split; [vm_compute; reflexivity|].
  split; [vm_compute; reflexivity|]. split; [exact carol_vouched|]. split; [exact other_log|].
  split; [vm_compute; discriminate|]. cbv zeta. eexists. vm_compute. reflexivity.
Qed.
