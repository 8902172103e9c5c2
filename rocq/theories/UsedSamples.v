(** Alice reads a message, hears another and a proposal, and reads it again. *)
From Verif Require Export UsedFacts AnonSamples Witness.

Definition meanwhile : list (bytes * gotime) := [(w36raw, clock); (w27update, clock)].
Lemma no_commit_meanwhile : @commits_accepted toy ga meanwhile 0.
Proof.
  apply ca_other.
  - intros ac c g' (_ & _ & H). assert (E : @unmarshalAndProcessMessage toy ga w36raw clock = (ga, Ok (Some (str "other")))) by (vm_compute; reflexivity).
    rewrite E in H. apply pair_equal_spec in H. destruct H as [_ H]. discriminate H.
  - apply ca_other; [|constructor]. intros ac c g' A. pose proof (commit_new_state _ _ _ _ _ _ A) as (x1 & x2 & x3 & x4 & x5 & x6 & _ & _ & _ & P & _).
    destruct A as (_ & _ & A). apply (f_equal fst) in A. cbn [fst] in A. rewrite <- A in P.
    apply (f_equal (@length _)) in P. vm_compute in P. discriminate P.
Qed.
Lemma used_example : @obtained toy ga /\ @unmarshalAndProcessMessage toy ga w35raw clock = (ga, Ok (Some (str "hello"))) /\
  @commits_accepted toy ga meanwhile 0 /\ length (gr_pending (@after toy ga meanwhile)) = 1%nat /\
  @unmarshalAndProcessMessage toy (@after toy ga meanwhile) w35raw clock = (@after toy ga meanwhile, Ok (Some (str "hello"))) /\
  @can_sign toy ga /\ @createApplicationMessage toy ga (str "yes") [] (str "abcd") = Ok yesA /\
  @unmarshalAndProcessMessage toy (@after toy ga meanwhile) yesA clock = (@after toy ga meanwhile, Ok (Some (str "yes"))).
Proof.
  split; [exact ga_obtained|]. split; [vm_compute; reflexivity|]. split; [exact no_commit_meanwhile|]. split; [vm_compute; reflexivity|].
  split; [vm_compute; reflexivity|]. split; [exact ga_signs|]. split; vm_compute; reflexivity.
Qed.
