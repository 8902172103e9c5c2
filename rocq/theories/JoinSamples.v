(** Concrete conversations and Welcomes, for examples and counterexamples. *)
From Verif Require Export HistoryFacts IntegritySamples.

Lemma person_generated cs name kpp : person cs name = Ok kpp -> ln_encryptionKey (kp_leafNode (kpp_public kpp)) <> kp_initKey (kpp_public kpp) ->
  @generated toy cs kpp.
Proof.
  intros H Hne. split; [|assumption]. unfold person in H. do 8 eexists. split; [|split; [|exact H]]; reflexivity.
Qed.
Lemma alice_generated : @generated toy 1 alice.
Proof. apply (person_generated 1 "alice"); [vm_compute; reflexivity|vm_compute; discriminate]. Qed.
Lemma bob_generated : @generated toy 1 bob.
Proof. apply (person_generated 1 "bob"); [vm_compute; reflexivity|vm_compute; discriminate]. Qed.
Lemma carol_generated : @generated toy 1 carol.
Proof. apply (person_generated 1 "carol"); [vm_compute; reflexivity|vm_compute; discriminate]. Qed.
Lemma dave_generated : @generated toy 1 dave.
Proof. apply (person_generated 1 "dave"); [vm_compute; reflexivity|vm_compute; discriminate]. Qed.

Fixpoint distinctBytes (l : list bytes) : bool := match l with [] => true | x :: r => negb (existsb (bytes_eqb x) r) && distinctBytes r end.
Lemma distinctBytes_ok l : distinctBytes l = true -> NoDup l.
Proof.
  induction l as [|x l IH]; cbn; [constructor|]. intros H. apply andb_true_iff in H. destruct H as [H1 H2]. apply negb_true_iff in H1. constructor; [|auto].
  intros Hin. assert (existsb (bytes_eqb x) l = true); [|congruence]. apply existsb_exists. exists x. split; [assumption|apply bytes_eqb_refl].
Qed.
Definition basicb (l : leafNode) : bool :=
  (cred_type (ln_credential l) =? 1) && match caps_credentials (ln_capabilities l) with [1] => true | _ => false end.
Lemma basicb_ok ls : forallb basicb ls = true -> Forall basic_leaf ls.
Proof.
  intros H. apply Forall_forall. intros l Hl. rewrite forallb_forall in H. specialize (H _ Hl). unfold basicb in H. apply andb_true_iff in H. destruct H as [H1 H2].
  split; [now apply N.eqb_eq|]. destruct (caps_credentials (ln_capabilities l)) as [|[|[| |]] [|]]; congruence.
Qed.

Definition currentb (now : gotime) (l : leafNode) : bool :=
  match ln_lifetime l with
  | None => true
  | Some lt => ((Z.of_N (lt_notBefore lt) * 1000000000 <? nanos now)%Z && (nanos now <? Z.of_N (lt_notAfter lt) * 1000000000)%Z &&
      (Z.of_N (lt_notAfter lt) - Z.of_N (lt_notBefore lt) <=? ninetyDays)%Z && (Z.of_N (lt_notAfter lt) <? 2 ^ 63 - unixToInternal)%Z)
  end.
Lemma currentb_ok now ls : forallb (currentb now) ls = true -> Forall (current_leaf now) ls.
Proof.
  intros H. apply Forall_forall. intros l Hl lt E. rewrite forallb_forall in H. specialize (H _ Hl). unfold currentb in H. rewrite E, !andb_true_iff in H.
  rewrite !Z.ltb_lt, Z.leb_le in H. unfold current, ends_in_time. tauto.
Qed.

(** *** Alice founds a group and invites Bob and Carol. *)
Definition g0 : group := Eval vm_compute in getOr noGroup (@createGroup toy (str "grp") alice (zeros 32)).
Definition noWelcome : welcome := mkWelcome 0 [] [].
Definition firstWelcome : group * (welcome * bytes) := Eval vm_compute in
  let (g, r) := @createWelcome toy g0 [kpp_public bob; kpp_public carol] [] [] [str "x"; str "y"] (str "abcd") in (g, getOr (noWelcome, []) r).

Lemma first_conversation : @conversation toy [ga; gb; gc].
Proof.
  destruct (generated_may_join (C := toy) g0 [bob; carol] toy_ok) as [Hm Hk].
  { constructor; [exact bob_generated|constructor; [exact carol_generated|constructor]]. }
  { reflexivity. }
  { apply basicb_ok. vm_compute. reflexivity. }
  { apply distinctBytes_ok. vm_compute. reflexivity. }
  { apply distinctBytes_ok. vm_compute. reflexivity. }
  change [ga; gb; gc] with ([ga] ++ [gb; gc]).
  apply (welcomed [] g0 [] [bob; carol] [] [] [str "x"; str "y"] (str "abcd") (fst firstWelcome) (fst (snd firstWelcome)) (snd (snd firstWelcome))).
  - apply (founded (str "grp") alice (zeros 32)); [apply (generated_founder 1); [exact toy_ok|exact alice_generated]|vm_compute; reflexivity].
  - reflexivity.
  - exact Hm.
  - exact Hk.
  - vm_compute. reflexivity.
  - apply distinctBytes_ok. vm_compute. reflexivity.
  - constructor; [|constructor]. exists clock. vm_compute. reflexivity.
  - assert (Hc : @all_current g0 (map kpp_public [bob; carol]) clock) by (apply currentb_ok; vm_compute; reflexivity).
    constructor; [|constructor; [|constructor]]; exists clock; (split; [exact clock_later|split; [exact Hc|vm_compute; reflexivity]]).
Qed.

Lemma trio_together : exists e, together (C := toy) e [ga; gb; gc].
Proof. exact (conversation_together _ toy_ok first_conversation). Qed.
Lemma ga_in_order : @in_order toy ga.
Proof. destruct trio_together as (e & _ & F). apply Forall_inv in F. apply F. Qed.

(** *** Bob invites Dave. *)
Definition secondWelcome : group * (welcome * bytes) := Eval vm_compute in
  let (g, r) := @createWelcome toy gb [kpp_public dave] [] [] [str "z"] (str "efgh") in (g, getOr (noWelcome, []) r).
Definition hear (g : group) (raw : bytes) : group := fst (@unmarshalAndProcessMessage toy g raw clock).
Definition quartet : list group := Eval vm_compute in
  [hear ga (snd (snd secondWelcome)); hear (fst secondWelcome) (snd (snd secondWelcome)); hear gc (snd (snd secondWelcome));
   getOr noGroup (@groupFromWelcome toy (fst (snd secondWelcome)) dave clock)].

Lemma dave_may_join : @may_join toy gb [kpp_public dave] /\ Forall (@holds_private_keys toy) [dave].
Proof.
  apply (generated_may_join (C := toy) gb [dave] toy_ok).
  - constructor; [exact dave_generated|constructor].
  - reflexivity.
  - apply basicb_ok. vm_compute. reflexivity.
  - apply distinctBytes_ok. vm_compute. reflexivity.
  - apply distinctBytes_ok. vm_compute. reflexivity.
Qed.

Lemma second_conversation : @conversation toy quartet.
Proof.
  change quartet with (firstn 3 quartet ++ skipn 3 quartet). destruct dave_may_join as [Hm Hk].
  apply (welcomed [ga] gb [gc] [dave] [] [] [str "z"] (str "efgh") (fst secondWelcome) (fst (snd secondWelcome)) (snd (snd secondWelcome))).
  - exact first_conversation.
  - reflexivity.
  - exact Hm.
  - exact Hk.
  - vm_compute. reflexivity.
  - apply distinctBytes_ok. vm_compute. reflexivity.
  - repeat constructor; exists clock; vm_compute; reflexivity.
  - assert (Hc : all_current gb (map kpp_public [dave]) clock) by (apply currentb_ok; vm_compute; reflexivity).
    constructor; [|constructor]; exists clock; (split; [exact clock_later|split; [exact Hc|vm_compute; reflexivity]]).
Qed.

(** *** The group after Bob's commit with a path: Alice invites Dave. *)
Definition aliceAfterPath : group := Eval vm_compute in snd w55.
Definition carolAfterPath : group := Eval vm_compute in hear gc w55raw.
Definition thirdWelcome : group * (welcome * bytes) := Eval vm_compute in
  let (g, r) := @createWelcome toy aliceAfterPath [kpp_public dave] [] [] [str "z"] (str "efgh") in (g, getOr (noWelcome, []) r).

Lemma afterPath_agree : agree aliceAfterPath carolAfterPath.
Proof. vm_compute. repeat split. Qed.
Lemma consistentb_ok g n : (forall p, In (Some p) (gr_tree g) -> (p < length (gr_heap g))%nat) -> 
  somes (gr_tree g) = n -> NoDup n -> length (gr_privTree g) = length (gr_tree g) -> consistent g.
Proof.
  intros H1 H2 H3 H4. subst n. split; [|assumption]. split; [assumption|]. intros i j p Hi Hj. eapply nth_NoDup_somes; eauto.
Qed.

Lemma welcome_changes_the_group : exists (C : crypto) g kps rs ri rh rg g' w raw,
  crypto_ok C /\ proper (gr_heap g) (gr_tree g) /\ createWelcome g kps rs ri rh rg = (g', Ok (w, raw)) /\ gr_value g' <> gr_value g.
Proof.
  exists toy, aliceAfterPath, [kpp_public dave], [], [], [str "z"], (str "efgh"), (fst thirdWelcome), (fst (snd thirdWelcome)), (snd (snd thirdWelcome)).
  split; [exact toy_ok|]. split.
  - apply (consistentb_ok aliceAfterPath (somes (gr_tree aliceAfterPath))).
    + intros p Hp. vm_compute in Hp. repeat (destruct Hp as [Hp|Hp]; [try discriminate; injection Hp as <-; vm_compute; lia|]). destruct Hp.
    + reflexivity.
    + vm_compute. repeat constructor; cbn; intuition discriminate.
    + reflexivity.
  - split; [vm_compute; reflexivity|vm_compute; discriminate].
Qed.
