(** Properties of the keys and signatures in the tree after commits: C53, C54. *)
From Verif Require Import KeySamples.

(** ** C53 *)
(** An added leaf is not compared with the tree at all, and neither is that of
    an update: Bob can add themselves a second time. *)
Theorem C53_keys_stay_unique_refuted :
  exists (C : crypto) g raw now ac c g',
    crypto_ok C /\ obtained g /\ accepts_commit g raw now ac c g' /\ distinct_signature_keys (gr_value g) /\ distinct_node_keys (gr_value g) /\
    ~ distinct_signature_keys (gr_value g') /\ ~ distinct_node_keys (gr_value g').
Proof. exact keys_repeated. Qed.
Print Assumptions C53_keys_stay_unique_refuted.

(** The claim holds when the proposed leaves bring no key twice; the signature
    key of an update path is always checked. *)
Theorem C53_signature_keys_partial :
  forall (C : crypto) g raw now ac c g' li ps,
  obtained g -> accepts_commit g raw now ac c g' -> fc_sender (ac_content ac) = SMember li -> commits g li c ps ->
  distinct_signature_keys (gr_value g) -> fresh_keys ln_signatureKey (leaf_at (gr_value g)) ps ->
  distinct_signature_keys (gr_value g').
Proof. exact @commit_signature_keys. Qed.
Print Assumptions C53_signature_keys_partial.

(** The encryption keys of an update path are checked against those of the
    members only. *)
Theorem C53_encryption_keys_partial :
  forall (C : crypto) g raw now ac c g' li ps,
  obtained g -> accepts_commit g raw now ac c g' -> fc_sender (ac_content ac) = SMember li -> commits g li c ps ->
  distinct_node_keys (gr_value g) -> fresh_encryption_keys (gr_value g) ps (c_path c) ->
  distinct_node_keys (gr_value g').
Proof. exact @commit_encryption_keys. Qed.
Print Assumptions C53_encryption_keys_partial.

Example C53_example :
  exists ac c g', @obtained toy ga /\ @accepts_commit toy ga w53pathRaw clock ac c g' /\ fc_sender (ac_content ac) = SMember 1 /\
    commits ga 1 c [(PAdd (kpp_public dave), 1); (PRemove 2, 1)] /\
    distinct_signature_keys (gr_value ga) /\ fresh_keys ln_signatureKey (leaf_at (gr_value ga)) [(PAdd (kpp_public dave), 1); (PRemove 2, 1)] /\
    distinct_node_keys (gr_value ga) /\ fresh_encryption_keys (gr_value ga) [(PAdd (kpp_public dave), 1); (PRemove 2, 1)] (c_path c) /\
    c_path c <> None /\ leaf_at (gr_value g') 2 = Some (kp_leafNode (kpp_public dave)).
Proof. exact keys_example. Qed.

(** ** C54 *)
(** The signature of an added leaf is not verified, only that of its key
    package. *)
Theorem C54_leaves_stay_signed_refuted :
  exists (C : crypto) g raw now ac c g',
    crypto_ok C /\ obtained g /\ accepts_commit g raw now ac c g' /\
    all_signed (gc_cipherSuite (gr_context g)) (gc_groupID (gr_context g)) (gr_value g) /\
    exists li l, leaf_at (gr_value g') li = Some l /\ forall i, ~ leaf_signed (gc_cipherSuite (gr_context g)) (gc_groupID (gr_context g)) i l.
Proof. exact unsigned_accepted. Qed.
Print Assumptions C54_leaves_stay_signed_refuted.

(** The leaf of an update path can be signed for a leaf index that only
    designates its place since 2 * index wraps around. *)
Theorem C54_path_leaf_signed_for_its_place_refuted :
  exists (C : crypto) g raw now ac c g',
    crypto_ok C /\ obtained g /\ accepts_commit g raw now ac c g' /\ c_proposals c = [] /\
    all_signed (gc_cipherSuite (gr_context g)) (gc_groupID (gr_context g)) (gr_value g) /\
    ~ all_signed (gc_cipherSuite (gr_context g)) (gc_groupID (gr_context g)) (gr_value g').
Proof. exact misplaced_accepted. Qed.
Print Assumptions C54_path_leaf_signed_for_its_place_refuted.

(** The claim holds when the committer's index is below 2^31 and the proposed
    leaves are signed. *)
Theorem C54_leaves_stay_signed_partial :
  forall (C : crypto) g raw now ac c g' li ps,
  obtained g -> accepts_commit g raw now ac c g' -> fc_sender (ac_content ac) = SMember li -> commits g li c ps -> li < 2 ^ 31 ->
  let cs := gc_cipherSuite (gr_context g) in let gid := gc_groupID (gr_context g) in
  all_signed cs gid (gr_value g) -> new_leaves_signed cs gid ps -> all_signed cs gid (gr_value g').
Proof. exact @commit_leaves_signed. Qed.
Print Assumptions C54_leaves_stay_signed_partial.

Example C54_example :
  exists ac c g', @obtained toy ga /\ @accepts_commit toy ga w53pathRaw clock ac c g' /\ fc_sender (ac_content ac) = SMember 1 /\
    commits ga 1 c [(PAdd (kpp_public dave), 1); (PRemove 2, 1)] /\
    @all_signed toy (gc_cipherSuite (gr_context ga)) (gc_groupID (gr_context ga)) (gr_value ga) /\
    @new_leaves_signed toy (gc_cipherSuite (gr_context ga)) (gc_groupID (gr_context ga)) [(PAdd (kpp_public dave), 1); (PRemove 2, 1)].
Proof. exact signed_example. Qed.
