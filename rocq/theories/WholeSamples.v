(** Dave joins a tree with a blank right half, and cannot invite Bob. *)
From Verif Require Export WholeFacts TypesSamples CommitTreeSamples.

(** Eight nodes, the last five blank *)
Definition wideInfo : groupInfo := Eval vm_compute in infoWith (pairNodes ++ repeat None 5) (pairNodes ++ repeat None 12).
Definition wideWelcome : welcome := Eval vm_compute in welcomeWith wideInfo.
Definition wideJoined : group := Eval vm_compute in getOr noGroup (@groupFromWelcome toy wideWelcome dave clock).
Lemma wideJoined_eq : @groupFromWelcome toy wideWelcome dave clock = Ok wideJoined.
Proof. vm_compute. reflexivity. Qed.
Definition wideInvite : group * (welcome * bytes) := Eval vm_compute in
  match @createWelcome toy wideJoined [kpp_public bob] [] [] [str "x"] (str "abcd") with (g, Ok r) => (g, r) | (g, _) => (g, (noWelcome, [])) end.
Lemma wideInvite_eq : @createWelcome toy wideJoined [kpp_public bob] [] [] [str "x"] (str "abcd") = (fst wideInvite, Ok (snd wideInvite)).
Proof. vm_compute. reflexivity. Qed.
Definition narrowTree : bytes := Eval vm_compute in getOr [] (putRatchetTree (gr_value wideJoined)).

Lemma bob_may_join : @may_join toy wideJoined [kpp_public bob] /\ Forall (@holds_private_keys toy) [bob].
Proof.
  apply (generated_may_join (C := toy) wideJoined [bob] toy_ok).
  - constructor; [exact bob_generated|constructor].
  - reflexivity.
  - apply basicb_ok. vm_compute. reflexivity.
  - apply distinctBytes_ok. vm_compute. reflexivity.
  - apply distinctBytes_ok. vm_compute. reflexivity.
Qed.
Lemma other_tree_sent : exists (C : crypto) w kpp now g raw t,
  crypto_ok C /\ later_than_1970 now /\ groupFromWelcome w kpp now = Ok g /\ putRatchetTree (gr_value g) = Ok raw /\ unmarshal getRatchetTree raw = Ok t /\ t <> gr_value g.
Proof.
  exists toy, wideWelcome, dave, clock, wideJoined, narrowTree, pairNodes. split; [exact toy_ok|]. split; [exact clock_later|]. split; [exact wideJoined_eq|].
  split; [vm_compute; reflexivity|]. split; [vm_compute; reflexivity|vm_compute; discriminate].
Qed.
Lemma invited_in_vain : exists (C : crypto) w0 kpp0 now g kps rs ri rh rg g1 w raw kpp e,
  crypto_ok C /\ later_than_1970 now /\ groupFromWelcome w0 kpp0 now = Ok g /\ may_join g kps /\ all_current g kps now /\
  createWelcome g kps rs ri rh rg = (g1, Ok (w, raw)) /\ In (kpp_public kpp) kps /\ holds_private_keys kpp /\ groupFromWelcome w kpp now = Err e.
Proof.
  exists toy, wideWelcome, dave, clock, wideJoined, [kpp_public bob], [], [], [str "x"], (str "abcd"), (fst wideInvite), (fst (snd wideInvite)), (snd (snd wideInvite)), bob, "mls: tree hash verification failed"%string.
  split; [exact toy_ok|]. split; [exact clock_later|]. split; [exact wideJoined_eq|]. split; [exact (proj1 bob_may_join)|].
  split; [apply currentb_ok; vm_compute; reflexivity|].
  split; [rewrite wideInvite_eq; destruct (snd wideInvite); reflexivity|]. split; [now left|]. split; [exact (Forall_inv (proj2 bob_may_join))|]. vm_compute. reflexivity.
Qed.
Lemma whole_example :
  @lawful toy qa' /\ ends_with_member (gr_value qa') /\ (exists raw, putRatchetTree (gr_value qa') = Ok raw) /\
  @lawful toy wideJoined /\ ~ ends_with_member (gr_value wideJoined).
Proof.
  pose proof types_example as (_ & _ & _ & L & _). split; [exact L|]. split; [|split; [|split]].
  - right. exists 2. split; vm_compute; discriminate.
  - eexists. vm_compute. reflexivity.
  - exact (lawful_joined (C := toy) _ _ _ _ wideJoined_eq).
  - intros [E|(j & Hj & Hl)]; [discriminate E|]. change (lenN (gr_value wideJoined)) with 15 in Hl. unfold leaf_at in Hj.
    assert (3 < j) by lia. assert (Hb : forall i, (7 < i)%nat -> nth_error (gr_value wideJoined) i = None \/ nth_error (gr_value wideJoined) i = Some None).
    { change (gr_value wideJoined) with (pairNodes ++ repeat None 12). intros i Hi. rewrite nth_error_app2 by (cbn; lia).
      destruct (nth_error (repeat None 12) (i - length pairNodes)) as [o|] eqn:Eo; [right|now left]. apply nth_error_In, repeat_spec in Eo. now subst. }
    destruct (Hb (N.to_nat (2 * j)) ltac:(lia)) as [E|E]; rewrite E in Hj; now apply Hj.
Qed.
