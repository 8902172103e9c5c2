(** Proofs about the names of cipher suites. *)
From Coq Require Import DecimalN DecimalFacts.
From Verif Require Export SpecNames BaseFacts OutcomeFacts.

Lemma to_uint_not_nil n : N.to_uint n <> Decimal.Nil.
Proof.
  intros H. pose proof (DecimalN.Unsigned.of_to n) as E. rewrite H in E. cbn in E. subst n. discriminate H.
Qed.

Lemma decimal_in_digits n : in_digits (decimal n) n.
Proof.
  exists (N.to_uint n). split; [|apply DecimalN.Unsigned.of_to].
  apply NilZero.usu, to_uint_not_nil.
Qed.

Lemma decimal_inj n m : decimal n = decimal m -> n = m.
Proof.
  intros E. destruct (decimal_in_digits n) as (d & A & B), (decimal_in_digits m) as (e & F & G).
  rewrite E, F in A. injection A as <-. congruence.
Qed.

Theorem names_spell cs d : cipherSuiteDescriptions cs = Some d -> cipherSuiteString cs = spelled d.
Proof.
  intros H. destruct cs as [|p]; [discriminate|].
  do 3 (try destruct p as [p|p|]); try discriminate; injection H as <-; reflexivity.
Qed.

Lemma unnamed cs : cipherSuiteDescriptions cs = None -> cipherSuiteString cs = ("<" ++ decimal cs ++ ">")%string.
Proof.
  intros H. destruct cs as [|p]; [reflexivity|].
  do 3 (try destruct p as [p|p|]); try discriminate; reflexivity.
Qed.

Theorem names_number cs : cipherSuiteDescriptions cs = None ->
  exists s, cipherSuiteString cs = ("<" ++ s ++ ">")%string /\ in_digits s cs.
Proof. intros H. exists (decimal cs). split; [now apply unnamed|apply decimal_in_digits]. Qed.

Lemma append_tail (a b c : string) : (a ++ c)%string = (b ++ c)%string -> a = b.
Proof.
  intros H. apply (f_equal list_ascii_of_string) in H.
  assert (A : forall x y, list_ascii_of_string (x ++ y) = list_ascii_of_string x ++ list_ascii_of_string y).
  { induction x; intros; cbn; [reflexivity|]. now rewrite IHx. }
  rewrite !A in H. apply app_inv_tail in H. apply (f_equal string_of_list_ascii) in H.
  now rewrite !string_of_list_ascii_of_string in H.
Qed.

Theorem names_differ cs cs' : cipherSuiteString cs = cipherSuiteString cs' -> cs = cs'.
Proof.
  intros H. destruct (cipherSuiteDescriptions cs) as [d|] eqn:D, (cipherSuiteDescriptions cs') as [d'|] eqn:D'.
  - destruct cs as [|p]; [discriminate|]. destruct cs' as [|q]; [discriminate|].
    do 3 (try destruct p as [p|p|]); try discriminate; do 3 (try destruct q as [q|q|]); try discriminate; reflexivity.
  - rewrite (unnamed _ D') in H. destruct cs as [|p]; [discriminate|]. do 3 (try destruct p as [p|p|]); try discriminate.
  - rewrite (unnamed _ D) in H. destruct cs' as [|p]; [discriminate|]. do 3 (try destruct p as [p|p|]); try discriminate.
  - rewrite (unnamed _ D), (unnamed _ D') in H. cbn in H. injection H as H. now apply append_tail, decimal_inj in H.
Qed.

(** ** Identities *)
Lemma generated_identity {C : crypto} cs cred t0 t1 r1 r2 r3 r4 r5 kpp :
  generateKeyPairPackage cs cred t0 t1 r1 r2 r3 r4 r5 = Ok kpp -> ln_credential (kp_leafNode (kpp_public kpp)) = cred.
Proof.
  unfold generateKeyPairPackage, leafNodeSign, keyPackageSign. intros H. rinv. subst. reflexivity.
Qed.

Theorem identity_kept {C : crypto} cs id t0 t1 r1 r2 r3 r4 r5 kpp raw k : crypto_ok C -> u16 cs ->
  generateKeyPairPackage cs (newBasicCredential id) t0 t1 r1 r2 r3 r4 r5 = Ok kpp ->
  keyPackageBytes (kpp_public kpp) = Ok raw -> unmarshalKeyPackage raw = Ok k ->
  cred_type (ln_credential (kp_leafNode k)) = 1 /\ cred_identity (ln_credential (kp_leafNode k)) = id.
Proof.
  intros OK U G B D.
  assert (WF : wf_credential (newBasicCredential id)) by (left; split; reflexivity).
  destruct (package_valid _ _ _ _ _ _ _ _ _ _ OK U WF G) as (_ & _ & _ & R & _).
  rewrite (R _ B) in D. injection D as <-. rewrite (generated_identity _ _ _ _ _ _ _ _ _ _ G). easy.
Qed.
