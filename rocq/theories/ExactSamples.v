(** Bob's commit of a reinit proposal, and the same with another tag. *)
From Verif Require Export EndSamples BlankSamples ExactPathFacts.

Definition ac112 : authenticatedContent := Eval vm_compute in publicContent (fst (fst w110)).
Definition c112 : commit := mkCommit [PorProposal (PReInit w110reInit)] None.
Lemma accepts112 : @accepts_commit toy ga w110raw clock ac112 c112 (snd w110).
Proof.
  assert (H : acceptedPublic ga w110raw = Some (fst (fst w110), c112, snd w110)) by (vm_compute; reflexivity).
  exact (acceptedPublic_commit ga w110raw (fst (fst w110)) c112 (snd w110) H).
Qed.
Definition bad112 : bytes := Eval vm_compute in rev (tl (rev w110raw)) ++ [n2b ((b2n (last w110raw (n2b 0)) + 1) mod 256)].
Definition badMessage : publicMessage := Eval vm_compute in match unmarshal getMlsMessage bad112 with Ok (MPublic m) => m | _ => noMessage end.
Lemma exact_example :
  @obtained toy ga /\ @carries toy ga w110raw ac112 /\ modest ga ac112 /\ fc_body (ac_content ac112) = BCommit c112 /\ c_path c112 = None /\
  @authentic toy ga ac112 /\ @tagged toy ga w110raw /\
  (exists t, @acceptable_commit toy ga ac112 c112 1 [(PReInit w110reInit, 1)] /\ after_proposals (gr_value ga) [(PReInit w110reInit, 1)] t /\ encodable t) /\
  (exists ac, @carries toy ga bad112 ac /\ ~ @tagged toy ga bad112).
Proof.
  destruct (accepted_acceptable _ _ _ _ _ _ ga_obtained accepts112) as (Au & Ht & li & ps & t & V & AP & P).
  assert (li = 1) as -> by (pose proof (ac_sender _ _ _ _ _ V) as H; injection H as H; now symmetry).
  assert (Hc : commits ga 1 c112 [(PReInit w110reInit, 1)]) by repeat constructor.
  pose proof (proj2 (resolveProposals_spec _ _ _ _) (ac_proposals _ _ _ _ _ V)) as R1. pose proof (proj2 (resolveProposals_spec _ _ _ _) Hc) as R2.
  rewrite R1 in R2. apply Ok_inj in R2. rewrite R2 in *.
  split; [exact ga_obtained|]. split; [apply accepts112|]. split; [vm_compute; reflexivity|]. split; [reflexivity|]. split; [reflexivity|].
  split; [exact Au|]. split; [exact Ht|]. split; [exists t; cbn in P; tauto|].
  assert (U : unmarshal getMlsMessage bad112 = Ok (MPublic badMessage)) by (vm_compute; reflexivity).
  eexists. split; [apply carries_public; exact U|]. intros T. specialize (T _ U). vm_compute in T. discriminate.
Qed.

Lemma tame111 : tame ga c111.
Proof.
  intros li ps t Hc AP. assert (Eps : ps = [(PRemove 3, li)]).
  { apply (proj2 (resolveProposals_spec _ _ _ _)) in Hc. vm_compute in Hc. apply Ok_inj in Hc. now symmetry. }
  subst ps. assert (AP1 : after_proposals (gr_value ga) [(PRemove 3, 1)] t) by exact AP. rewrite (after_proposals_fun _ _ _ _ AP1 after111).
  split; [apply encodableb_ok; vm_compute; reflexivity|apply lists_once_by; vm_compute; reflexivity].
Qed.
Lemma exact_path_example :
  crypto_ok toy /\ known_suite (gc_cipherSuite (gr_context ga)) /\ @carries toy ga w111raw ac111 /\ modest ga ac111 /\
  fc_body (ac_content ac111) = BCommit c111 /\ c_path c111 = Some (fst (fst made111)) /\ tame ga c111 /\
  @authentic toy ga ac111 /\ @tagged toy ga w111raw /\
  exists li ps k t t' z, @acceptable_commit toy ga ac111 c111 li ps /\ @acceptable_path toy ga ps li (fst (fst made111)) k t t' z.
Proof.
  destruct (accepted_acceptable _ _ _ _ _ _ ga_obtained accepts111) as (Au & Ht & _).
  destruct (accepted_path _ _ _ _ _ _ _ ga_obtained accepts111 path111) as (li & ps & k & t & z & V & P).
  split; [exact toy_ok|]. split; [eexists; vm_compute; reflexivity|]. split; [apply accepts111|]. split; [vm_compute; reflexivity|]. split; [reflexivity|].
  split; [exact path111|]. split; [exact tame111|]. split; [exact Au|]. split; [exact Ht|]. exists li, ps, k, t, (gr_value (snd w111)), z. auto.
Qed.
