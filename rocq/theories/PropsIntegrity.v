(** Properties of verified trees: C21, C22 and C23. *)
From Verif Require Import IntegritySamples.

(** ** C21 *)
(** A verified tree has all the properties if no member lists a credential type
    twice. *)
Theorem C21_verified_trees_have_integrity_partial :
  forall (C : crypto) k t ctx now, full k t -> wf_lifetimes t -> later_than_1970 now -> lists_once t ->
  verifyIntegrity t ctx now = Ok tt -> shaped k t /\ integrity k t ctx now.
Proof. exact @verifyIntegrity_full_sound. Qed.
Print Assumptions C21_verified_trees_have_integrity_partial.

(** Without this condition it has all the properties but support of the
    credential types. *)
Theorem C21_verified_trees_but_credentials_partial :
  forall (C : crypto) k t ctx now, full k t -> wf_lifetimes t -> later_than_1970 now ->
  verifyIntegrity t ctx now = Ok tt -> shaped k t /\ integrity_but_credentials k t ctx now.
Proof. exact @verifyIntegrity_full_most. Qed.
Print Assumptions C21_verified_trees_but_credentials_partial.

Theorem C21_trees_with_integrity_verify_partial :
  forall (C : crypto) k t ctx now, shaped k t -> wf_lifetimes t -> later_than_1970 now -> lists_once t -> crypto_ok C -> encodable t ->
  integrity k t ctx now -> verifyIntegrity t ctx now = Ok tt.
Proof. exact @verifyIntegrity_complete. Qed.
Print Assumptions C21_trees_with_integrity_verify_partial.

(** A verified tree in which not all members list the credential type of a
    member *)
Theorem C21_refuted :
  exists (C : crypto) k t ctx now, crypto_ok C /\ shaped k t /\ wf_lifetimes t /\ encodable t /\ later_than_1970 now /\
  verifyIntegrity t ctx now = Ok tt /\ ~ integrity k t ctx now.
Proof. exact integrity_unsound. Qed.
Print Assumptions C21_refuted.

(** A tree with all the properties that is rejected *)
Theorem C21_converse_refuted :
  exists (C : crypto) k t ctx now, crypto_ok C /\ shaped k t /\ wf_lifetimes t /\ encodable t /\ later_than_1970 now /\
  integrity k t ctx now /\ verifyIntegrity t ctx now <> Ok tt.
Proof. exact integrity_incomplete. Qed.
Print Assumptions C21_converse_refuted.

(** Three members and two parent nodes *)
Example C21_example : @integrity toy 2 pathTree pathContext clock /\
  exists n, at_path 2 pathTree [] = Some (NParent n) /\ @parent_hash_valid toy 1 2 pathTree [] n.
Proof.
  assert (H : @integrity toy 2 pathTree pathContext clock).
  { apply (verifyIntegrity_sound (C := toy) 2); [exact pathTree_shaped|apply wf_lifetimes_by; vm_compute; reflexivity|exact clock_later|
      apply lists_once_by; vm_compute; reflexivity|exact pathTree_verified]. }
  split; [exact H|]. eexists. split; [reflexivity|]. apply (proj1 H); [unfold in_tree; cbn; lia|reflexivity].
Qed.

(** ** C22 *)
(** It holds if no member lists a type twice, for trees with members. *)
Theorem C22_supported_means_all_list_it_partial :
  forall k t, shaped k t -> some_member t -> lists_once t ->
  exists creds, supportedCreds t = Ok creds /\ forall ct, In ct creds <-> listed_by_all t ct.
Proof. exact supportedCreds_spec. Qed.
Print Assumptions C22_supported_means_all_list_it_partial.

Theorem C22_refuted :
  exists k t creds ct, shaped k t /\ some_member t /\ supportedCreds t = Ok creds /\ In ct creds /\ ~ listed_by_all t ct.
Proof.
  destruct twice_supported as (creds & H). exists 1%nat, twiceTree, creds, 1. split; [exact twiceTree_shaped|].
  split; [exists 0; eexists; reflexivity|exact H].
Qed.
Print Assumptions C22_refuted.

Theorem C22_converse_refuted :
  exists k t creds ct, shaped k t /\ some_member t /\ supportedCreds t = Ok creds /\ ~ In ct creds /\ listed_by_all t ct.
Proof.
  destruct thrice_unsupported as (creds & H). exists 1%nat, thriceTree, creds, 1. split; [exact thriceTree_shaped|].
  split; [exists 0; eexists; reflexivity|exact H].
Qed.
Print Assumptions C22_converse_refuted.

Example C22_example : lists_once onceTree /\ some_member onceTree /\ listed_by_all onceTree 1 /\ ~ listed_by_all onceTree 2 /\
  exists creds, supportedCreds onceTree = Ok creds /\ In 1 creds /\ ~ In 2 creds.
Proof.
  split; [apply lists_once_by; vm_compute; reflexivity|]. split; [exists 0; eexists; reflexivity|].
  destruct (supportedCreds_spec 1 onceTree onceTree_shaped) as (creds & E & H); [exists 0; eexists; reflexivity|apply lists_once_by; vm_compute; reflexivity|].
  vm_compute in E. injection E as <-. assert (H1 : listed_by_all onceTree 1) by (apply H; cbn; auto).
  assert (H2 : ~ listed_by_all onceTree 2) by (intros X; apply H in X; cbn in X; intuition discriminate).
  split; [exact H1|]. split; [exact H2|]. eexists. split; [vm_compute; reflexivity|]. split; [cbn; auto|cbn; intuition discriminate].
Qed.

(** ** C23 *)
Theorem C23_accepted_lifetimes_are_current :
  forall lt now, lt_notBefore lt < 2 ^ 64 -> lt_notAfter lt < 2 ^ 64 -> later_than_1970 now ->
  lifetimeVerify lt now = true -> current lt now.
Proof. intros lt now H1 H2 H3 H. exact (proj1 (proj1 (lifetimeVerify_spec lt now H1 H2 H3) H)). Qed.
Print Assumptions C23_accepted_lifetimes_are_current.

(** The converse holds for lifetimes whose end is a value of time.Time. *)
Theorem C23_current_lifetimes_are_accepted_partial :
  forall lt now, lt_notBefore lt < 2 ^ 64 -> lt_notAfter lt < 2 ^ 64 -> later_than_1970 now ->
  lifetimeVerify lt now = true <-> current lt now /\ ends_in_time lt.
Proof. exact lifetimeVerify_spec. Qed.
Print Assumptions C23_current_lifetimes_are_accepted_partial.

Theorem C23_refuted :
  exists lt now, lt_notBefore lt < 2 ^ 64 /\ lt_notAfter lt < 2 ^ 64 /\ later_than_1970 now /\
  current lt now /\ lifetimeVerify lt now = false.
Proof. exact lifetime_end_of_time. Qed.
Print Assumptions C23_refuted.

Example C23_example : lifetimeVerify (mkLifetime 2000000000 2000000200) clock = true /\
  lifetimeVerify (mkLifetime 2000000000 2000000050) clock = false /\
  lifetimeVerify (mkLifetime (2 ^ 64 - 1) 2000000200) clock = false /\
  lifetimeVerify (mkLifetime 0 2000000200) clock = false.
Proof. vm_compute. auto. Qed.
