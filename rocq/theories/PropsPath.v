(** Properties of update paths and path secrets: C50, C52. *)
From Verif Require Import PathSamples.

(** ** C50 *)
(** The leaves that a commit adds are not recipients of its path secrets, but
    go-mls counts them among the recipients. *)
Theorem C50_members_decrypt_paths_refuted :
  exists (C : crypto) cs k t t' new ctx li r up z priv e,
    crypto_ok C /\ shaped k t /\ lists_members_below k t /\ shaped k t' /\ update_path cs k t t' new ctx li up z /\
    r < leaf_count k /\ r <> li /\ leaf_at t r <> None /\ holds_keys cs k t priv r /\ ~ In r new /\
    decryptPathSecrets cs t' ctx li r up priv = Err e.
Proof. exact path_refused. Qed.
Print Assumptions C50_members_decrypt_paths_refuted.

(** With messages: a member follows a commit, another one that is not removed
    does not. *)
Theorem C50_members_follow_commits_refuted :
  exists (C : crypto) g m raw now g' m' e,
    crypto_ok C /\ obtained g /\ obtained m /\ agree g m /\
    unmarshalAndProcessMessage g raw now = (g', Ok None) /\ leaf_at (gr_value g') (gr_myLeafIndex m) <> None /\
    unmarshalAndProcessMessage m raw now = (m', Err e).
Proof. exact commit_splits_group. Qed.
Print Assumptions C50_members_follow_commits_refuted.

(** The claim holds for a member when the nodes above it and above a new member
    are also above the committer, in particular when there is no new member. *)
Theorem C50_members_decrypt_paths_partial :
  forall (C : crypto) cs k t t' new ctx li r up z priv, crypto_ok C ->
  shaped k t -> lists_members_below k t -> shaped k t' ->
  update_path cs k t t' new ctx li up z ->
  r < leaf_count k -> r <> li -> leaf_at t r <> None -> holds_keys cs k t priv r ->
  (forall u a, In u new -> ancestor_or_self a (leafPath k r) -> ancestor_or_self a (leafPath k u) -> ancestor_or_self a (leafPath k li)) ->
  exists priv', decryptPathSecrets cs t' ctx li r up priv = Ok (z, priv') /\ holds_keys cs k t' priv' r.
Proof. exact @decryptPathSecrets_ok. Qed.
Print Assumptions C50_members_decrypt_paths_partial.

Example C50_example :
  shaped 2 t50 /\ lists_members_below 2 t50 /\ shaped 2 t50' /\ @update_path toy 1 2 t50 t50' [3] ctx50 1 up50 z50 /\
  @holds_keys toy 1 2 t50 (gr_privTree aliceAfterPath) 0 /\
  (forall u a, In u [3] -> ancestor_or_self a (leafPath 2 0) -> ancestor_or_self a (leafPath 2 u) -> ancestor_or_self a (leafPath 2 1)).
Proof. exact path_example. Qed.

(** ** C52 *)
(** The secret of the second node above the common ancestor is derived from the
    wrong one. *)
Theorem C52_joiner_derives_keys_refuted :
  exists (C : crypto) w kpp j p now g0 gi k a b s1 s2 e,
    crypto_ok C /\ generated 1 kpp /\
    groupFromSecrets w kpp (mkGroupSecrets j None []) None [] now = Ok g0 /\ decryptGroupInfo w j (gr_pskSecret g0) = Ok gi /\
    shaped k (gr_value g0) /\ gr_myLeafIndex g0 < leaf_count k /\ gi_signer gi < leaf_count k /\
    leafPath k (gr_myLeafIndex g0) = a ++ b :: s1 /\ leafPath k (gi_signer gi) = a ++ negb b :: s2 /\
    keyed_from (gc_cipherSuite (gr_context g0)) k (gr_value g0) (nonblank k (gr_value g0) (a :: proper_ancestors a)) p /\
    groupFromSecrets w kpp (mkGroupSecrets j (Some p) []) None [] now = Err e.
Proof. exact path_secret_refused. Qed.
Print Assumptions C52_joiner_derives_keys_refuted.

(** A blank node above the common ancestor makes the joiner panic. *)
Theorem C52_joiner_skips_blanks_refuted :
  exists (C : crypto) w kpp j p now g0 gi k a b s1 s2 e,
    crypto_ok C /\ generated 1 kpp /\
    groupFromSecrets w kpp (mkGroupSecrets j None []) None [] now = Ok g0 /\ decryptGroupInfo w j (gr_pskSecret g0) = Ok gi /\
    shaped k (gr_value g0) /\ gr_myLeafIndex g0 < leaf_count k /\ gi_signer gi < leaf_count k /\
    leafPath k (gr_myLeafIndex g0) = a ++ b :: s1 /\ leafPath k (gi_signer gi) = a ++ negb b :: s2 /\
    keyed_from (gc_cipherSuite (gr_context g0)) k (gr_value g0) (nonblank k (gr_value g0) (a :: proper_ancestors a)) p /\
    groupFromSecrets w kpp (mkGroupSecrets j (Some p) []) None [] now = Panic e.
Proof. exact path_secret_panics. Qed.
Print Assumptions C52_joiner_skips_blanks_refuted.

(** Whoever joins with a path secret has the private key of every common
    ancestor, none of which is blank. *)
Theorem C52_joiner_keys_partial :
  forall (C : crypto) w kpp now g ref s, crypto_ok C -> groupFromWelcome w kpp now = Ok g ->
  keyPackageRef (kpp_public kpp) = Ok ref -> decryptGroupSecrets w ref (kpp_initKey kpp) = Ok s -> gs_pathSecret s <> None ->
  exists k gi, shaped k (gr_value g) /\ decryptGroupInfo w (gs_joinerSecret s) (gr_pskSecret g) = Ok gi /\
    forall p, ancestor_or_self p (leafPath k (gr_myLeafIndex g)) -> ancestor_or_self p (leafPath k (designated (gi_signer gi))) ->
      exists n key, at_path k (gr_value g) p = Some n /\ at_path k (gr_privTree g) p = Some key /\
                    opens (gc_cipherSuite (gr_context g)) key (node_encryptionKey n).
Proof. exact @joiner_keys. Qed.
Print Assumptions C52_joiner_keys_partial.

(** The path secret is accepted when the common ancestor is the root or a child
    of it, and they are in the committer's path. *)
Theorem C52_joiner_derives_keys_partial :
  forall (C : crypto) w kpp j p psks ro ks now g0 gi k a b s1 s2,
  groupFromSecrets w kpp (mkGroupSecrets j None psks) ro ks now = Ok g0 ->
  decryptGroupInfo w j (gr_pskSecret g0) = Ok gi -> shaped k (gr_value g0) -> gr_myLeafIndex g0 < leaf_count k -> gi_signer gi < leaf_count k ->
  leafPath k (gr_myLeafIndex g0) = a ++ b :: s1 -> leafPath k (gi_signer gi) = a ++ negb b :: s2 -> (length a <= 1)%nat ->
  keyed_from (gc_cipherSuite (gr_context g0)) k (gr_value g0) (a :: proper_ancestors a) p ->
  exists g, groupFromSecrets w kpp (mkGroupSecrets j (Some p) psks) ro ks now = Ok g /\
    gr_value g = gr_value g0 /\ keys_from (gc_cipherSuite (gr_context g0)) k (gr_value g0) (a :: proper_ancestors a) p (gr_privTree g).
Proof. exact @joiner_path_secret. Qed.
Print Assumptions C52_joiner_derives_keys_partial.

Example C52_example :
  groupFromSecrets (C := toy) (w52 t52c' None) dave (mkGroupSecrets (zeros 32) None []) None [] clock = Ok (joined52 t52c') /\
  decryptGroupInfo (C := toy) (w52 t52c' None) (zeros 32) (gr_pskSecret (joined52 t52c')) = Ok (gi52 t52c') /\
  shaped 2 (gr_value (joined52 t52c')) /\
  leafPath 2 (gr_myLeafIndex (joined52 t52c')) = [false] ++ true :: [] /\ leafPath 2 (gi_signer (gi52 t52c')) = [false] ++ negb true :: [] /\
  @keyed_from toy (gc_cipherSuite (gr_context (joined52 t52c'))) 2 (gr_value (joined52 t52c')) ([false] :: proper_ancestors [false]) seed52.
Proof. exact path_secret_example. Qed.
Example C52_example_joined : exists ref s, crypto_ok toy /\ groupFromWelcome (C := toy) (w52 t52c' (Some seed52)) dave clock = Ok joinedWith /\
  keyPackageRef (C := toy) (kpp_public dave) = Ok ref /\ decryptGroupSecrets (C := toy) (w52 t52c' (Some seed52)) ref (kpp_initKey dave) = Ok s /\ gs_pathSecret s <> None.
Proof. exact joiner_example. Qed.
