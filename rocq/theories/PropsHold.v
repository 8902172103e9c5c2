(** The private keys of members, and the commits they follow (C50, C72). *)
From Verif Require Import HoldSamples.

(** ** C50 *)
(** What one member accepts, every member accepts, and they agree: for commits
    without a path, and for those with a path that RFC 9420 prescribes, if no
    node above the two members, below the committer's direct path, is above a
    leaf added by the commit. *)
Theorem C50_members_follow_commits_partial :
  forall (C : crypto) g m raw now ac c g' li ps, crypto_ok C -> obtained g -> obtained m -> agree g m -> gr_pending m = gr_pending g ->
  accepts_commit g raw now ac c g' -> fc_sender (ac_content ac) = SMember li -> commits g li c ps ->
  match c_path c with
  | None => True
  | Some up => exists k t new, prescribed_path g g' ps li up k t new /\ follows_path g li k t new /\ follows_path m li k t new
  end ->
  exists m', unmarshalAndProcessMessage m raw now = (m', Ok None) /\ agree g' m' /\ gr_pending m' = gr_pending g' /\
    gr_myLeafIndex m' = gr_myLeafIndex m /\ (c_path c <> None -> holds_its_keys m').
Proof. exact @members_follow_keys. Qed.
Print Assumptions C50_members_follow_commits_partial.

(** Bob removes Dave; Alice and Carol follow. *)
Example C50_example_members_follow :
  exists ac c g' up, crypto_ok toy /\ @obtained toy qa /\ @obtained toy qc /\ agree qa qc /\ gr_pending qc = gr_pending qa /\
    @accepts_commit toy qa w50raw clock ac c g' /\ fc_sender (ac_content ac) = SMember 1 /\ commits qa 1 c [(PRemove 3, 1)] /\
    c_path c = Some up /\ @prescribed_path toy qa g' [(PRemove 3, 1)] 1 up 2 t50r [] /\
    @follows_path toy qa 1 2 t50r [] /\ @follows_path toy qc 1 2 t50r [] /\ up_nodes up <> [].
Proof. exact follow_example. Qed.

(** ** C72 *)
Theorem C72_founders_hold_their_keys :
  forall (C : crypto) groupID kpp rnd g, holds_private_keys kpp -> createGroup groupID kpp rnd = Ok g -> holds_its_keys g.
Proof. exact @created_holds. Qed.
Print Assumptions C72_founders_hold_their_keys.

Theorem C72_joiners_hold_their_keys :
  forall (C : crypto) w kpp now g ref s, crypto_ok C -> groupFromWelcome w kpp now = Ok g ->
  keyPackageRef (kpp_public kpp) = Ok ref -> decryptGroupSecrets w ref (kpp_initKey kpp) = Ok s ->
  opens (gc_cipherSuite (gr_context g)) (kpp_encryptionKey kpp) (ln_encryptionKey (kp_leafNode (kpp_public kpp))) ->
  (forall gi, decryptGroupInfo w (gs_joinerSecret s) (gr_pskSecret g) = Ok gi ->
     unmerged_without_secret g (match gs_pathSecret s with Some _ => true | None => false end) (gi_signer gi)) ->
  holds_its_keys g.
Proof. exact @joined_holds. Qed.
Print Assumptions C72_joiners_hold_their_keys.

Theorem C72_members_keep_their_keys :
  forall (C : crypto) g raw now g' r, crypto_ok C -> obtained g -> holds_its_keys g -> unmarshalAndProcessMessage g raw now = (g', r) ->
  same_leaf_key g g' -> holds_its_keys g'.
Proof. exact @message_holds. Qed.
Print Assumptions C72_members_keep_their_keys.

Theorem C72_inviters_keep_their_keys :
  forall (C : crypto) g kps rs ri rh rg g' r, obtained g -> holds_its_keys g -> createWelcome g kps rs ri rh rg = (g', r) -> holds_its_keys g'.
Proof. exact @welcome_holds. Qed.
Print Assumptions C72_inviters_keep_their_keys.

(** Carol joined, followed Bob's invitation of Dave and the removal of Dave
    with an update path, and has got keys of parent nodes by that. *)
Example C72_example :
  @obtained toy qc /\ @holds_its_keys toy qc /\ same_leaf_key qc (hear qc w50raw) /\
  length (filter (fun o => match o with Some _ => true | None => false end) (gr_privTree qc)) = 1%nat /\
  length (filter (fun o => match o with Some _ => true | None => false end) (gr_privTree (hear qc w50raw))) = 2%nat.
Proof. exact hold_example. Qed.
Example C72_example_joiner : exists ref s, crypto_ok toy /\ groupFromWelcome (C := toy) (w52 t52c' (Some seed52)) dave clock = Ok joined72 /\
  keyPackageRef (C := toy) (kpp_public dave) = Ok ref /\ decryptGroupSecrets (C := toy) (w52 t52c' (Some seed52)) ref (kpp_initKey dave) = Ok s /\
  gs_pathSecret s <> None /\
  @opens toy (gc_cipherSuite (gr_context joined72)) (kpp_encryptionKey dave) (ln_encryptionKey (kp_leafNode (kpp_public dave))) /\
  (forall gi, decryptGroupInfo (C := toy) (w52 t52c' (Some seed52)) (gs_joinerSecret s) (gr_pskSecret joined72) = Ok gi ->
     unmerged_without_secret joined72 (match gs_pathSecret s with Some _ => true | None => false end) (gi_signer gi)).
Proof. exact joiner_holds_example. Qed.
