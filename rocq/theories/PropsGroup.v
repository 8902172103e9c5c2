(** Properties of groups and their members: C33, C41, C42, C44, C45, C47, C48,
    C49, C59 and C60. *)
From Verif Require Import GroupSamples OutcomeFacts.

(** ** C33 *)
Theorem C33_application_messages_are_delivered :
  forall (C : crypto) g m data rnd rg raw now, crypto_ok C -> obtained g -> can_sign g -> same_epoch g m -> lenN rg = 4 ->
  createApplicationMessage g data rnd rg = Ok raw -> unmarshalAndProcessMessage m raw now = (m, Ok (Some data)).
Proof. exact @message_outcome. Qed.
Print Assumptions C33_application_messages_are_delivered.

Example C33_example : @obtained toy gb /\ @can_sign toy gb /\ same_epoch gb ga /\ gr_myLeafIndex gb <> gr_myLeafIndex ga /\
  @createApplicationMessage toy gb (str "hello") [] (str "efgh") = Ok w35raw /\
  @unmarshalAndProcessMessage toy ga w35raw clock = (ga, Ok (Some (str "hello"))).
Proof.
  split; [exact gb_obtained|]. split.
  { destruct trio_together as (e & _ & F). apply Forall_inv_tail, Forall_inv in F. apply F. }
  split; [vm_compute; repeat split|]. split; [vm_compute; discriminate|]. split; vm_compute; reflexivity.
Qed.

(** ** C41 *)
(** Anyone who knows the group and its epoch can make a member panic, with a
    public message that claims to be from a leaf outside of the tree. *)
Theorem C41_messages_can_panic_refuted :
  exists (C : crypto) g raw now g' p, crypto_ok C /\ obtained g /\ unmarshalAndProcessMessage g raw now = (g', Panic p).
Proof. exact message_panics. Qed.
Print Assumptions C41_messages_can_panic_refuted.

(** ** C42 *)
(** Anyone who has a key package can make its owner panic. *)
Theorem C42_welcomes_can_panic_refuted :
  exists (C : crypto) raw w kpp now p,
  crypto_ok C /\ unmarshalWelcome raw = Ok w /\ w_cipherSuite w = 1 /\ generated 1 kpp /\ groupFromWelcome w kpp now = Panic p.
Proof. exact welcome_panics. Qed.
Print Assumptions C42_welcomes_can_panic_refuted.

(** ** C44 *)
(** All is as before, but for unmerged leaves of parent nodes. *)
Theorem C44_rejected_messages_change_little_partial :
  forall (C : crypto) g raw now g' e, obtained g -> unmarshalAndProcessMessage g raw now = (g', Err e) ->
  same_state_but_unmerged g g' /\ (leaves_only (gr_value g) -> same_state g g').
Proof. exact @error_outcome. Qed.
Print Assumptions C44_rejected_messages_change_little_partial.

Theorem C44_rejected_messages_change_nothing_refuted :
  exists (C : crypto) g raw now g' e,
  crypto_ok C /\ obtained g /\ unmarshalAndProcessMessage g raw now = (g', Err e) /\ gr_value g' <> gr_value g.
Proof. exact error_changes_group. Qed.
Print Assumptions C44_rejected_messages_change_nothing_refuted.

(** Without parent nodes nothing is changed. *)
Definition badPathRaw2 : bytes := Eval vm_compute in
  getOr [] (@sendPublic toy gc 2
    (BCommit (mkCommit [PorProposal (PAdd (kpp_public dave))] (Some (mkUpdatePath (kp_leafNode (kpp_public carol)) [])))) [] (str "tag")).
Example C44_example : @obtained toy ga /\ leaves_only (gr_value ga) /\
  exists g' e, @unmarshalAndProcessMessage toy ga badPathRaw2 clock = (g', Err e) /\ gr_heap g' <> gr_heap ga /\ same_state ga g'.
Proof.
  split; [exact ga_obtained|]. assert (L : leaves_only (gr_value ga)).
  { intros i p. vm_compute. do 8 (destruct i as [|i]; [discriminate|]). destruct i; discriminate. }
  split; [exact L|]. destruct (@unmarshalAndProcessMessage toy ga badPathRaw2 clock) as [g' r] eqn:E. exists g', "mls: commit path leaf node source must be commit"%string.
  assert (Hr : r = Err "mls: commit path leaf node source must be commit") by (change r with (snd (g', r)); rewrite <- E; vm_compute; reflexivity). subst r.
  split; [reflexivity|]. split; [|exact (proj2 (error_outcome (C := toy) _ _ _ _ _ ga_obtained E) L)].
  change g' with (fst (g', @Err (option bytes) "mls: commit path leaf node source must be commit")). rewrite <- E. vm_compute. discriminate.
Qed.

(** ** C45 *)
Theorem C45_create_welcome_changes_little_partial :
  forall (C : crypto) g kps rs ri rh rg g' r, obtained g -> createWelcome g kps rs ri rh rg = (g', r) ->
  same_state_but_unmerged g g' /\ (leaves_only (gr_value g) -> same_state g g').
Proof. exact @welcome_outcome. Qed.
Print Assumptions C45_create_welcome_changes_little_partial.

Theorem C45_create_welcome_changes_nothing_refuted :
  exists (C : crypto) g kps rs ri rh rg g' w raw,
  crypto_ok C /\ obtained g /\ createWelcome g kps rs ri rh rg = (g', Ok (w, raw)) /\ gr_value g' <> gr_value g.
Proof. exact welcome_changes_group. Qed.
Print Assumptions C45_create_welcome_changes_nothing_refuted.

(** The heap does grow. *)
Example C45_example : @obtained toy gb /\ leaves_only (gr_value gb) /\
  @createWelcome toy gb [kpp_public dave] [] [] [str "z"] (str "efgh") = (fst secondWelcome, Ok (snd secondWelcome)) /\
  gr_heap (fst secondWelcome) <> gr_heap gb /\ same_state gb (fst secondWelcome).
Proof.
  assert (L : leaves_only (gr_value gb)).
  { intros i p. vm_compute. do 8 (destruct i as [|i]; [discriminate|]). destruct i; discriminate. }
  assert (E : @createWelcome toy gb [kpp_public dave] [] [] [str "z"] (str "efgh") = (fst secondWelcome, Ok (snd secondWelcome))) by (vm_compute; reflexivity).
  split; [exact gb_obtained|]. split; [exact L|]. split; [exact E|]. split; [vm_compute; discriminate|].
  exact (proj2 (welcome_outcome (C := toy) _ _ _ _ _ _ _ _ gb_obtained E) L).
Qed.

(** ** C47 *)
(** All the other members process the commit, and end in the same state; so
    does the committer if its tree has no parent nodes. *)
Theorem C47_members_agree_after_a_welcome_partial :
  forall (C : crypto) g kps rs ri rh rg g1 w raw, crypto_ok C -> obtained g -> can_sign g -> lenN rg = 4 ->
  Forall wf_keyPackage kps -> Forall (addable (gr_context g)) kps -> NoDup (map (fun k => ln_signatureKey (kp_leafNode k)) kps) ->
  createWelcome g kps rs ri rh rg = (g1, Ok (w, raw)) ->
  exists s, (forall m now, consistent m -> agree g m -> exists m', unmarshalAndProcessMessage m raw now = (m', Ok None) /\ agree s m') /\
    (leaves_only (gr_value g) -> forall now, exists g2, unmarshalAndProcessMessage g1 raw now = (g2, Ok None) /\ agree s g2).
Proof. exact @welcome_accepted. Qed.
Print Assumptions C47_members_agree_after_a_welcome_partial.

(** The committer ends in another state than the others if there are parent
    nodes. *)
Theorem C47_committer_agrees_refuted :
  exists (C : crypto) g m kps rs ri rh rg g1 w raw now g2 m2,
  crypto_ok C /\ obtained g /\ obtained m /\ agree g m /\ may_join g kps /\
  createWelcome g kps rs ri rh rg = (g1, Ok (w, raw)) /\
  unmarshalAndProcessMessage g1 raw now = (g2, Ok None) /\ unmarshalAndProcessMessage m raw now = (m2, Ok None) /\
  gc_treeHash (gr_context g2) <> gc_treeHash (gr_context m2) /\ gr_epochSecret g2 <> gr_epochSecret m2.
Proof. exact members_diverge. Qed.
Print Assumptions C47_committer_agrees_refuted.

Example C47_example : @obtained toy gb /\ agree gb ga /\ consistent ga /\ @may_join toy gb [kpp_public dave] /\
  @createWelcome toy gb [kpp_public dave] [] [] [str "z"] (str "efgh") = (fst secondWelcome, Ok (snd secondWelcome)) /\
  exists m', @unmarshalAndProcessMessage toy ga (snd (snd secondWelcome)) clock = (m', Ok None) /\ gr_value m' <> gr_value ga.
Proof.
  split; [exact gb_obtained|]. split; [vm_compute; repeat split|]. split; [exact (sane_consistent _ (obtained_sane (C := toy) _ ga_obtained))|].
  split; [exact (proj1 dave_may_join)|]. split; [vm_compute; reflexivity|]. exists (hear ga (snd (snd secondWelcome))). split; [vm_compute; reflexivity|vm_compute; discriminate].
Qed.

(** ** C48 *)
(** It holds for groups in order, if no leaf in the tree has expired and no two
    of the new members' references collide. *)
Theorem C48_new_members_join_and_agree_partial :
  forall (C : crypto) g kps rs ri rh rg g1 w raw kpp now, crypto_ok C -> in_order g -> may_join g kps -> lenN rg = 4 ->
  createWelcome g kps rs ri rh rg = (g1, Ok (w, raw)) -> NoDup (welcomeNewMembers w) ->
  In (kpp_public kpp) kps -> holds_private_keys kpp -> later_than_1970 now -> all_current g kps now ->
  exists j, groupFromWelcome w kpp now = Ok j /\ leaf_at (gr_value j) (gr_myLeafIndex j) = Some (kp_leafNode (kpp_public kpp)) /\ in_order j /\
    forall m now', consistent m -> agree g m -> exists m', unmarshalAndProcessMessage m raw now' = (m', Ok None) /\ agree m' j.
Proof. exact @welcome_agreement. Qed.
Print Assumptions C48_new_members_join_and_agree_partial.

(** Members never renew their leaves, so after a while nobody can join. *)
Theorem C48_new_members_join_refuted :
  exists (C : crypto) g kps rs ri rh rg g1 w raw kpp now e,
  crypto_ok C /\ obtained g /\ in_order g /\ may_join g kps /\ In (kpp_public kpp) kps /\ holds_private_keys kpp /\
  current_leaf now (kp_leafNode (kpp_public kpp)) /\
  createWelcome g kps rs ri rh rg = (g1, Ok (w, raw)) /\ groupFromWelcome w kpp now = Err e.
Proof. exact late_join_refused. Qed.
Print Assumptions C48_new_members_join_refuted.

Example C48_example : @in_order toy gb /\ @may_join toy gb [kpp_public dave] /\ @holds_private_keys toy dave /\ all_current gb [kpp_public dave] clock /\
  NoDup (welcomeNewMembers (fst (snd secondWelcome))) /\
  exists j, @groupFromWelcome toy (fst (snd secondWelcome)) dave clock = Ok j /\ gr_myLeafIndex j = 3.
Proof.
  split.
  { destruct trio_together as (e & _ & F). apply Forall_inv_tail, Forall_inv in F. apply F. }
  split; [exact (proj1 dave_may_join)|]. split; [exact (Forall_inv (proj2 dave_may_join))|].
  split; [apply currentb_ok; vm_compute; reflexivity|]. split; [apply distinctBytes_ok; vm_compute; reflexivity|].
  eexists. split; [vm_compute; reflexivity|reflexivity].
Qed.

(** ** C49 *)
(** In any conversation, all the members agree, and what anyone says is heard
    by everyone. *)
Theorem C49_members_stay_in_agreement :
  forall (C : crypto) gs, crypto_ok C -> conversation gs ->
  (forall a b, In a gs -> In b gs -> agree a b) /\
  (forall g m data rnd rg raw now, In g gs -> In m gs -> lenN rg = 4 -> createApplicationMessage g data rnd rg = Ok raw ->
     unmarshalAndProcessMessage m raw now = (m, Ok (Some data))).
Proof. exact @conversation_agrees. Qed.
Print Assumptions C49_members_stay_in_agreement.

(** In any conversation, whoever is invited can join, and everyone accepts
    them. *)
Theorem C49_invitations_are_accepted :
  forall (C : crypto) before g after kpps rs ri rh rg g1 w raw, crypto_ok C -> conversation (before ++ g :: after) -> lenN rg = 4 ->
  may_join g (map kpp_public kpps) -> Forall holds_private_keys kpps ->
  createWelcome g (map kpp_public kpps) rs ri rh rg = (g1, Ok (w, raw)) -> NoDup (welcomeNewMembers w) ->
  exists s,
    (forall m now, In m (before ++ g1 :: after) -> exists m', unmarshalAndProcessMessage m raw now = (m', Ok None) /\ agree s m') /\
    (forall kpp now, In kpp kpps -> later_than_1970 now -> all_current g (map kpp_public kpps) now ->
      exists j, groupFromWelcome w kpp now = Ok j /\ agree s j /\ leaf_at (gr_value j) (gr_myLeafIndex j) = Some (kp_leafNode (kpp_public kpp))).
Proof. exact @conversation_grows. Qed.
Print Assumptions C49_invitations_are_accepted.

(** Alice founds a group and invites Bob and Carol, and Bob invites Dave. *)
Example C49_example : @conversation toy quartet /\ length quartet = 4%nat /\ NoDup (map gr_myLeafIndex quartet).
Proof.
  split; [exact second_conversation|]. split; [reflexivity|]. vm_compute. repeat constructor; cbn; intuition discriminate.
Qed.

(** ** C59 *)
(** All that, but for the support of credential types by members who list some
    type twice *)
Theorem C59_joining_requires_a_valid_group_partial :
  forall (C : crypto) w kpp now g, later_than_1970 now -> groupFromWelcome w kpp now = Ok g ->
  exists gi k signer, let_in w kpp g gi /\
    leaf_at (gr_value g) (designated (gi_signer gi)) = Some signer /\ info_signed gi (ln_signatureKey signer) /\
    gi_confirmationTag gi = confirmation_tag (gr_context g) (gr_epochSecret g) /\
    shaped k (gr_value g) /\ integrity_but_credentials k (gr_value g) (gr_context g) now /\
    (lists_once (gr_value g) -> integrity k (gr_value g) (gr_context g) now) /\
    own_leaf_is g (kp_leafNode (kpp_public kpp)) /\ consistent g /\ gr_pending g = [].
Proof. exact @joined. Qed.
Print Assumptions C59_joining_requires_a_valid_group_partial.

Theorem C59_joined_trees_are_valid_refuted :
  exists (C : crypto) w kpp now g,
  crypto_ok C /\ later_than_1970 now /\ groupFromWelcome w kpp now = Ok g /\ ~ credentials_supported (gr_value g).
Proof. exact joined_without_integrity. Qed.
Print Assumptions C59_joined_trees_are_valid_refuted.

Example C59_example : @groupFromWelcome toy (fst (snd firstWelcome)) bob clock = Ok gb /\ lists_once (gr_value gb).
Proof. split; [vm_compute; reflexivity|]. apply lists_once_by. vm_compute. reflexivity. Qed.

(** ** C60 *)
Theorem C60_generated_packages_are_valid :
  forall (C : crypto) cs cred t0 t1 r1 r2 r3 r4 r5 kpp, crypto_ok C -> u16 cs -> wf_credential cred ->
  generateKeyPairPackage cs cred t0 t1 r1 r2 r3 r4 r5 = Ok kpp ->
  let k := kpp_public kpp in
  holds_private_keys kpp /\ leaf_signed_anywhere cs (kp_leafNode k) /\
  (lenN (kp_signature k) < 2 ^ 30 -> exists raw, keyPackageBytes k = Ok raw) /\
  (forall raw, keyPackageBytes k = Ok raw -> unmarshalKeyPackage raw = Ok k) /\
  (ln_encryptionKey (kp_leafNode k) <> kp_initKey k -> forall ctx, gc_version ctx = 1 -> gc_cipherSuite ctx = cs -> keyPackageVerify k ctx = Ok tt).
Proof. exact @package_valid. Qed.
Print Assumptions C60_generated_packages_are_valid.

(** They are current for thirty days. *)
Theorem C60_generated_packages_are_current :
  forall (C : crypto) cs cred t0 t1 r1 r2 r3 r4 r5 kpp now,
  generateKeyPairPackage cs cred t0 t1 r1 r2 r3 r4 r5 = Ok kpp ->
  later_than_1970 t0 -> later_than_1970 t1 -> (nanos t0 <= nanos t1 <= nanos t0 + 59 * 24 * 3600 * 1000000000)%Z -> (t_sec t1 < 2 ^ 62)%Z ->
  within_thirty_days t0 t1 now ->
  exists lt, ln_lifetime (kp_leafNode (kpp_public kpp)) = Some lt /\ current lt now /\ ends_in_time lt.
Proof. exact @generated_current. Qed.
Print Assumptions C60_generated_packages_are_current.

(** Those with basic credentials may join any group of members with basic
    credentials if the keys are new: commits that add them are then accepted
    (C47, C48). *)
Theorem C60_generated_packages_may_join :
  forall (C : crypto) g kpps, crypto_ok C -> Forall (generated (gc_cipherSuite (gr_context g))) kpps -> gc_version (gr_context g) = 1 ->
  Forall basic_leaf (leafNodesOf (gr_value g)) ->
  NoDup (map ln_signatureKey (leafNodesOf (gr_value g)) ++ map (fun p => ln_signatureKey (kp_leafNode (kpp_public p))) kpps) ->
  NoDup (encryptionKeysOf (gr_value g) ++ map (fun p => ln_encryptionKey (kp_leafNode (kpp_public p))) kpps) ->
  may_join g (map kpp_public kpps) /\ Forall holds_private_keys kpps.
Proof. exact @generated_may_join. Qed.
Print Assumptions C60_generated_packages_may_join.

Example C60_example : person 1 "alice" = Ok alice /\ @keyPackageVerify toy (kpp_public alice) (gr_context ga) = Ok tt /\
  kp_signature (kpp_public alice) <> [] /\ Forall (@generated toy 1) [alice; bob].
Proof.
  split; [vm_compute; reflexivity|]. split; [vm_compute; reflexivity|]. split; [vm_compute; discriminate|].
  constructor; [exact alice_generated|constructor; [exact bob_generated|constructor]].
Qed.
