(** Alice proposes to remove Carol. Bob hears this, sends a message that Carol
    reads, and invites Dave. *)
From Verif Require Export DroppedFacts EndSamples ReferenceSamples.

Definition prop126 : bytes := Eval vm_compute in getOr [] (@sendPublic toy ga 0 (BProposal (PRemove 2)) (str "s") []).
Definition ga126 : group := Eval vm_compute in hear ga prop126.
Definition gb126 : group := Eval vm_compute in hear gb prop126.
Definition pp126 : pendingProposal := Eval vm_compute in hd (mkPendingProposal [] (PRemove 0) 0) (gr_pending gb126).
Definition made126 := Eval vm_compute in @createWelcome toy gb126 [kpp_public dave] [] [] [str "z"] (str "efgh").
Definition raw126 : bytes := Eval vm_compute in match snd made126 with Ok (_, raw) => raw | _ => [] end.
Definition secret126 : bytes := Eval vm_compute in getOr [] (@createApplicationMessage toy gb126 (str "secret") [] (str "abcd")).

Lemma dropped_example : @obtained toy gb126 /\ @obtained toy ga126 /\ @can_sign toy gb126 /\ agree gb126 ga126 /\ same_epoch gb126 gc /\
  In pp126 (gr_pending gb126) /\ In pp126 (gr_pending ga126) /\ pp_proposal pp126 = PRemove (gr_myLeafIndex gc) /\ gr_myLeafIndex gc = 2 /\
  @createApplicationMessage toy gb126 (str "secret") [] (str "abcd") = Ok secret126 /\ @unmarshalAndProcessMessage toy gc secret126 clock = (gc, Ok (Some (str "secret"))) /\
  (exists g1 w, @createWelcome toy gb126 [kpp_public dave] [] [] [str "z"] (str "efgh") = (g1, Ok (w, raw126))) /\
  (exists m' l, @unmarshalAndProcessMessage toy ga126 raw126 clock = (m', Ok None) /\ gr_pending m' = [] /\
     leaf_at (gr_value ga126) 2 = Some l /\ leaf_at (gr_value m') 2 = Some l /\ leaf_at (gr_value m') 3 = Some (kp_leafNode (kpp_public dave))).
Proof.
  split; [replace gb126 with (hear gb prop126); [exact (obtained_hear _ _ gb_obtained)|vm_compute; reflexivity]|].
  split; [replace ga126 with (hear ga prop126); [exact (obtained_hear _ _ ga_obtained)|vm_compute; reflexivity]|].
  split; [exact gb_signs|].
  split; [unfold agree; split; [vm_compute; reflexivity|]; split; [vm_compute; reflexivity|]; split; [vm_compute; reflexivity|]; split; [vm_compute; reflexivity|]; split; vm_compute; reflexivity|].
  split; [split; [vm_compute; reflexivity|split; vm_compute; reflexivity]|].
  split; [left; reflexivity|]. split; [left; reflexivity|]. split; [reflexivity|]. split; [reflexivity|].
  split; [vm_compute; reflexivity|]. split; [vm_compute; reflexivity|]. split.
  - eexists. eexists. vm_compute. reflexivity.
  - eexists. eexists. split; [vm_compute; reflexivity|]. split; [vm_compute; reflexivity|]. split; [vm_compute; reflexivity|]. split; vm_compute; reflexivity.
Qed.
Lemma carried_out_example :
  @obtained toy qa1 /\ In pp81 (gr_pending qa1) /\ pp_proposal pp81 = PRemove 3 /\
  (forall pp, In pp (gr_pending qa1) -> pp_ref pp = pp_ref pp81 -> pp = pp81) /\
  (exists ac c, @accepts_commit toy qa1 commit81 clock ac c (snd w81) /\ fc_sender (ac_content ac) = SMember 1 /\
    commits qa1 1 c [(PRemove 3, 2)] /\ In (PorReference (pp_ref pp81)) (c_proposals c)) /\
  leaf_at (gr_value qa1) 3 <> None /\ leaf_at (gr_value (snd w81)) 3 = None.
Proof.
  destruct reference_example as (H1 & H2 & _ & ac & c & H3 & H4 & H5 & H6).
  split; [exact H1|]. split; [exact H2|]. split; [reflexivity|]. split.
  { intros pp Hin E. destruct Hin as [<-|[<-|[]]].
    - apply (f_equal (fun r => bytes_eqb r (pp_ref pp81))) in E. vm_compute in E. discriminate E.
    - vm_compute. reflexivity. }
  split; [exists ac, c; splits; auto; rewrite H6; now left|]. split; [vm_compute; discriminate|vm_compute; reflexivity].
Qed.
