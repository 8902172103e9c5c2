(** A concrete commit, and a tree ending with a blank node in a Welcome. *)
From Verif Require Export CommitTreeFacts PathSamples.
From Verif Require Import JoinFacts.

Definition pathOf (c : commit) : updatePath := match c_path c with Some up => up | None => mkUpdatePath (kp_leafNode stranger) [] end.
Lemma pathOf_some c : (match c_path c with Some _ => true | None => false end) = true -> c_path c = Some (pathOf c).
Proof. unfold pathOf. now destruct (c_path c). Qed.
Lemma commit_tree_example :
  exists ac c g' up, @obtained toy ga /\ @accepts_commit toy ga w53pathRaw clock ac c g' /\ fc_sender (ac_content ac) = SMember 1 /\
    commits ga 1 c [(PAdd (kpp_public dave), 1); (PRemove 2, 1)] /\ c_path c = Some up /\ up_nodes up <> [] /\
    leaf_at (gr_value ga) 1 <> Some (up_leafNode up) /\ leaf_at (gr_value g') 1 = Some (up_leafNode up) /\
    leaf_at (gr_value g') 2 = Some (kp_leafNode (kpp_public dave)).
Proof.
  exists (publicContent (fst (fst w53path))), (snd (fst w53path)), (snd w53path), (pathOf (snd (fst w53path))). splits.
  - exact ga_obtained.
  - apply acceptedPublic_commit. rewrite w53path_accepted. now destruct w53path as [[? ?] ?].
  - reflexivity.
  - apply (proj1 (resolveProposals_spec _ _ _ _)). vm_compute. reflexivity.
  - apply pathOf_some. vm_compute. reflexivity.
  - vm_compute. discriminate.
  - vm_compute. discriminate.
  - vm_compute. reflexivity.
  - vm_compute. reflexivity.
Qed.

(** Alice invites Dave with a list of nodes, for the tree [t]. *)
Definition infoWith (l : list (option node)) (t : ratchetTree) : groupInfo := getOr (mkGroupInfo c52 [] [] 0 [])
  (let! th := @computeRootTreeHash toy 1 t in
   let! raw := writeVector putOptionalNode l in
   let ctx := mkGroupContext 1 1 (str "grp") 5 th (str "confirmed") [] in
   let! psk := @extractPSKSecret toy 1 [] [] in
   let! epoch := @extractEpochSecret toy ctx (zeros 32) psk in
   let! tag := @signConfirmationTag toy ctx epoch in
   @groupInfoSign toy (kpp_signatureKey alice) [] (mkGroupInfo ctx [mkExtension 2 raw] tag 0 [])).
Definition welcomeWith (gi : groupInfo) : welcome := getOr noWelcome (forgeWelcome gi (mkGroupSecrets (zeros 32) None []) (kpp_public dave)).

(** With four nodes, the last one blank *)
Definition pairNodes : list (option node) := Eval vm_compute in [leafOf alice; None; leafOf dave].
Definition blankInfo : groupInfo := Eval vm_compute in infoWith (pairNodes ++ [None]) (pairNodes ++ [None; None; None; None]).
Definition blankWelcome : welcome := Eval vm_compute in welcomeWith blankInfo.
Definition blankJoined : group := Eval vm_compute in getOr noGroup (@groupFromWelcome toy blankWelcome dave clock).
(** With the three nodes *)
Definition pairInfo : groupInfo := Eval vm_compute in infoWith pairNodes pairNodes.
Definition pairWelcome : welcome := Eval vm_compute in welcomeWith pairInfo.
Definition pairJoined : group := Eval vm_compute in getOr noGroup (@groupFromWelcome toy pairWelcome dave clock).

Definition daveRef : bytes := Eval vm_compute in getOr [] (@keyPackageRef toy (kpp_public dave)).
Lemma let_in_with w gi g : w_cipherSuite w = 1 ->
  @decryptGroupSecrets toy w daveRef (kpp_initKey dave) = Ok (mkGroupSecrets (zeros 32) None []) ->
  @decryptGroupInfo toy w (zeros 32) (gr_pskSecret g) = Ok gi -> gr_context g = gi_groupContext gi ->
  gc_cipherSuite (gr_context g) = 1 -> @extractPSKSecret toy 1 [] [] = Ok (gr_pskSecret g) ->
  @extractEpochSecret toy (gr_context g) (zeros 32) (gr_pskSecret g) = Ok (gr_epochSecret g) ->
  @deriveSecret toy 1 (gr_epochSecret g) secretLabelInit = Ok (gr_initSecret g) ->
  @nextInterimTranscriptHash toy 1 (gc_confirmedTranscriptHash (gr_context g)) (gi_confirmationTag gi) = Ok (gr_interimTranscriptHash g) ->
  @let_in toy w dave g gi.
Proof.
  intros Hw Hs Hi Hc H1 Hp He Hin Hit.
  assert (Er : @keyPackageRef toy (kpp_public dave) = Ok daveRef) by (vm_compute; reflexivity).
  assert (Ecs : gc_cipherSuite (gi_groupContext gi) = w_cipherSuite w) by congruence.
  assert (E1 : gc_cipherSuite (gi_groupContext gi) = 1) by congruence.
  revert Er Hs. generalize daveRef. intros ref Er Hs.
  refine (let_in_holds w dave ref _ _ gi _ _ _ g Er Hs eq_refl _ Hi Ecs _ _ _ Hc eq_refl eq_refl eq_refl eq_refl).
  - rewrite Hw. exact Hp.
  - rewrite <- Hc. exact He.
  - rewrite E1. exact Hin.
  - rewrite E1, <- Hc. exact Hit.
Qed.

Lemma blank_end_accepted : exists (C : crypto) w kpp now g gi l,
  crypto_ok C /\ groupFromWelcome w kpp now = Ok g /\ let_in w kpp g gi /\ brings_tree gi (l ++ [None]) /\
  lenN (gr_value g) = 7 /\ forall j, 2 <= j -> leaf_at (gr_value g) j = None.
Proof.
  exists toy, blankWelcome, dave, clock, blankJoined, blankInfo, pairNodes. splits.
  - exact toy_ok.
  - vm_compute. reflexivity.
  - apply let_in_with; vm_compute; reflexivity.
  - exists [], []. split; [vm_compute; reflexivity|intros e []].
  - vm_compute. reflexivity.
  - intros j Hj. unfold leaf_at. destruct (N.to_nat (2 * j)) as [|[|[|[|[|[|[|n]]]]]]] eqn:E; try lia; vm_compute; try reflexivity. now destruct n.
Qed.
Lemma tree_in_welcome_example : @groupFromWelcome toy pairWelcome dave clock = Ok pairJoined /\ @let_in toy pairWelcome dave pairJoined pairInfo /\
  brings_tree pairInfo pairNodes /\ gr_value pairJoined = pairNodes.
Proof.
  splits.
  - vm_compute. reflexivity.
  - apply let_in_with; vm_compute; reflexivity.
  - exists [], []. split; [vm_compute; reflexivity|intros e []].
  - vm_compute. reflexivity.
Qed.
