(** Dave sends an update path and is removed by Bob; Carol keeps the private key
    of the node above Carol and Dave. *)
From Verif Require Export StaleFacts HoldSamples.

Definition qd115 : group := Eval vm_compute in getOr noGroup (@groupFromWelcome toy (fst (snd secondWelcome)) dave clock).
Definition daves : bytes := Eval vm_compute in
  getOr [] (@sendPathCommit toy qd115 3 [] [] (pad 32 (str "dave leaf")) [] (pad 32 (str "seed d")) (str "r")).
Definition carol1 : group := Eval vm_compute in hear qc daves.
Definition bob1 : group := Eval vm_compute in hear qb daves.
Definition bobs : bytes := Eval vm_compute in
  getOr [] (@sendPathCommit toy bob1 1 [PorProposal (PRemove 3)] [] (pad 32 (str "bob leaf")) [] (pad 32 (str "seed b")) (str "r")).
Definition carol2 : group := Eval vm_compute in hear carol1 bobs.
Definition w115 := Eval vm_compute in getSome (noMessage, noCommit, noGroup) (acceptedPublic carol1 bobs).
Lemma w115_accepted : acceptedPublic carol1 bobs = Some w115.
Proof. vm_compute. reflexivity. Qed.

Lemma stale_example : exists ac c key,
  @obtained toy qc /\ tidy qc /\ @obtained toy carol1 /\ tidy carol1 /\ @accepts_commit toy carol1 bobs clock ac c carol2 /\ has_key carol1 5 key /\ ~ blank_node carol1 5 /\ blank_node carol2 5 /\ has_key carol2 5 key.
Proof.
  assert (O : @obtained toy carol1) by (replace carol1 with (hear qc daves); [exact (obtained_hear _ _ qc_obtained)|vm_compute; reflexivity]).
  destruct (nth_error (gr_privTree carol1) 5) as [[key|]|] eqn:E; [|vm_compute in E; discriminate E..].
  exists (publicContent (fst (fst w115))), (snd (fst w115)), key. split; [exact qc_obtained|].
  assert (T : forall g, forallb (fun x => match x with (Some _, None) => false | _ => true end) (combine (gr_privTree g) (gr_value g)) = true ->
    length (gr_privTree g) = length (gr_value g) -> tidy g).
  { intros g F L i k Hk. destruct (nth_error (gr_value g) i) as [o|] eqn:Ev; [|apply nth_error_None in Ev; assert (i < length (gr_privTree g))%nat by (apply nth_error_Some; unfold has_key in Hk; congruence); lia].
    rewrite forallb_forall in F. assert (I : In (Some k, o) (combine (gr_privTree g) (gr_value g))).
    { clear F. unfold has_key in Hk. revert L i Hk Ev. generalize (gr_privTree g) (gr_value g). intros l m. revert m. induction l as [|a l IH]; intros [|b m] L [|i]; cbn; try discriminate.
      - intros H1 H2. injection H1 as ->. injection H2 as ->. now left.
      - intros H1 H2. right. apply (IH m (eq_add_S _ _ L) i H1 H2). }
    apply F in I. destruct o as [n|]; [now exists n|discriminate]. }
  split; [apply T; vm_compute; reflexivity|]. split; [exact O|]. split; [apply T; vm_compute; reflexivity|].
  split. { assert (H : acceptedPublic carol1 bobs = Some (fst (fst w115), snd (fst w115), carol2)) by (vm_compute; reflexivity).
    exact (acceptedPublic_commit carol1 bobs _ _ _ H). }
  split; [exact E|]. split; [unfold blank_node; vm_compute; intros F; discriminate F|]. split; [vm_compute; reflexivity|].
  unfold has_key. rewrite <- E. vm_compute. reflexivity.
Qed.
