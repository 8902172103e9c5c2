(** The findings of C04, C36, C56 and C62 hold of every key package, member and
    commit, not only of those that refute the claims. *)
From Verif Require Import EveryFacts Witness.

(** ** C04 *)
(** Every key package is accepted without its signature, too. *)
Theorem C04_signatures_can_be_cut_off_refuted :
  forall raw k, unmarshalKeyPackage raw = Ok k -> kp_signature k <> [] ->
  exists cut rest, raw = cut ++ rest /\ rest <> [] /\ unmarshalKeyPackage cut = Ok (unsigned k).
Proof. exact signatures_can_be_cut. Qed.
Print Assumptions C04_signatures_can_be_cut_off_refuted.

Example C04_example_cut : exists raw, keyPackageBytes (kpp_public alice) = Ok raw /\ unmarshalKeyPackage raw = Ok (kpp_public alice) /\ kp_signature (kpp_public alice) <> [].
Proof. eexists. split; [vm_compute; reflexivity|]. split; [vm_compute; reflexivity|vm_compute; discriminate]. Qed.

(** ** C62 *)
(** Every key package of an unknown cipher suite that is decoded makes the
    computation of its reference panic. *)
Theorem C62_every_unknown_suite_panics_refuted :
  forall (C : crypto) raw k, unmarshalKeyPackage raw = Ok k -> ~ known_suite (kp_cipherSuite k) -> short (enc_keyPackage k) ->
  keyPackageRef k = Panic "mls: invalid cipher suite".
Proof. exact @unknown_suites_panic. Qed.
Print Assumptions C62_every_unknown_suite_panics_refuted.

Example C62_example_unknown : unmarshalKeyPackage w62raw = Ok w62kp /\ ~ known_suite (kp_cipherSuite w62kp) /\ short (enc_keyPackage w62kp).
Proof. split; [vm_compute; reflexivity|]. split; [intros [d H]; discriminate H|vm_compute; reflexivity]. Qed.

(** ** C36 *)
(** Whenever a member draws the same guard again in an epoch, the key and the
    nonce are the same. *)
Theorem C36_same_guard_same_key_and_nonce_refuted :
  forall (C : crypto) g d1 d2 r1 r2 guard raw1 raw2, u64 (gc_epoch (gr_context g)) ->
  createApplicationMessage g d1 r1 guard = Ok raw1 -> createApplicationMessage g d2 r2 guard = Ok raw2 ->
  exists key nonce pt1 pt2, sealed_under raw1 key nonce pt1 /\ sealed_under raw2 key nonce pt2.
Proof. exact @guards_alone_matter. Qed.
Print Assumptions C36_same_guard_same_key_and_nonce_refuted.

Example C36_example_guard : u64 (gc_epoch (gr_context gb)) /\
  is_ok (@createApplicationMessage toy gb (str "hello") [] (str "efgh")) = true /\
  is_ok (@createApplicationMessage toy gb (str "bye") [] (str "efgh")) = true.
Proof. vm_compute. auto. Qed.

(** ** C56 *)
(** No commit that arrives as a message mixes in a PSK, whatever it proposes. *)
Theorem C56_no_psk_is_ever_mixed_in_refuted :
  forall (C : crypto) g raw now ac c g', accepts_commit g raw now ac c g' ->
  extractPSKSecret (gc_cipherSuite (gr_context g)) [] [] = Ok (gr_pskSecret g') /\ Forall (fun b => b = x00) (gr_pskSecret g').
Proof. exact @commits_mix_in_no_psk. Qed.
Print Assumptions C56_no_psk_is_ever_mixed_in_refuted.
