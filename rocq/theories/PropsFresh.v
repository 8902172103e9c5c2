(** New encryption keys: C120. *)
From Verif Require Import FreshSamples.

(** ** C120 *)
(** An update proposal that keeps the encryption key is accepted. *)
Theorem C120_updates_bring_new_keys_refuted :
  exists (C : crypto) g raw now ac c g' li ps s l l',
  crypto_ok C /\ obtained g /\ accepts_commit g raw now ac c g' /\ fc_sender (ac_content ac) = SMember li /\ commits g li c ps /\
  In (PUpdate l', s) ps /\ leaf_at (gr_value g) s = Some l /\ leaf_at (gr_value g') s = Some l' /\
  leaf_signed (gc_cipherSuite (gr_context g)) (gc_groupID (gr_context g)) s l' /\ ln_source l' = 2 /\ l' <> l /\ ln_encryptionKey l' = ln_encryptionKey l.
Proof. exact stale_update. Qed.
Print Assumptions C120_updates_bring_new_keys_refuted.

(** A path that keeps the key of a parent node is accepted. *)
Theorem C120_paths_bring_new_parent_keys_refuted :
  exists (C : crypto) g raw now ac c g' li up k p key,
  crypto_ok C /\ obtained g /\ accepts_commit g raw now ac c g' /\ fc_sender (ac_content ac) = SMember li /\ c_path c = Some up /\
  shaped k (gr_value g) /\ shaped k (gr_value g') /\ above p (leafPath k li) /\
  In key (pathKeys up) /\ parent_with_key k (gr_value g) p key /\ parent_with_key k (gr_value g') p key.
Proof. exact stale_path. Qed.
Print Assumptions C120_paths_bring_new_parent_keys_refuted.

(** Missing: the updates and the parent nodes. What holds is that the key of the
    leaf of a committer with a path is replaced, and that neither this key nor
    that of another leaf is in the path. *)
Theorem C120_paths_bring_new_leaf_keys_partial :
  forall (C : crypto) g raw now ac c g' li ps up l, obtained g -> accepts_commit g raw now ac c g' -> fc_sender (ac_content ac) = SMember li ->
  commits g li c ps -> indices_below li ps -> c_path c = Some up -> leaf_at (gr_value g) li = Some l ->
  leaf_at (gr_value g') li = Some (up_leafNode up) /\
  ~ In (ln_encryptionKey l) (pathKeys up) /\ forall j l', j <> li -> leaf_at (gr_value g') j = Some l' -> ~ In (ln_encryptionKey l') (pathKeys up).
Proof. exact @fresh_leaf_keys. Qed.
Print Assumptions C120_paths_bring_new_leaf_keys_partial.

(** Alice, who has accepted a path of Bob, accepts one of Carol. *)
Example C120_example : exists ac c g' l up,
  @obtained toy sa120 /\ @accepts_commit toy sa120 carol120 clock ac c g' /\ fc_sender (ac_content ac) = SMember 2 /\ commits sa120 2 c [] /\ indices_below 2 [] /\
  c_path c = Some up /\ lenN (up_nodes up) = 2 /\ leaf_at (gr_value sa120) 2 = Some l /\ leaf_at (gr_value g') 2 = Some (up_leafNode up).
Proof. exact fresh_example. Qed.
