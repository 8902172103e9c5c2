(** Key packages, groups, messages and Welcomes can be made: C76. *)
From Verif Require Import CreateSamples.

(** ** C76 *)
(** [crypto_ok] includes that key generation never fails, and [compact] that
    signatures and keys are not huge.  The other hypotheses on sizes are far
    from the limit of the code, 2^30 - 1. *)
Theorem C76_packages_can_be_generated :
  forall (C : crypto), crypto_ok C -> compact C -> forall cs cred t0 t1 r1 r2 r3 r4 r5,
  known_suite cs -> wf_credential cred -> lenN (enc_credential cred) < 2 ^ 26 ->
  exists kpp, generateKeyPairPackage cs cred t0 t1 r1 r2 r3 r4 r5 = Ok kpp.
Proof. exact @package_total. Qed.
Print Assumptions C76_packages_can_be_generated.

Theorem C76_groups_can_be_created :
  forall (C : crypto), crypto_ok C -> forall gid kpp rnd,
  known_suite (kp_cipherSuite (kpp_public kpp)) -> wf_leafNode (kp_leafNode (kpp_public kpp)) ->
  lenN (enc_leafNode (kp_leafNode (kpp_public kpp))) < 2 ^ 26 -> exists g, createGroup gid kpp rnd = Ok g.
Proof. exact @group_total. Qed.
Print Assumptions C76_groups_can_be_created.

Theorem C76_members_can_send :
  forall (C : crypto), crypto_ok C -> compact C -> forall g data rnd rg,
  obtained g -> can_sign g -> lenN rg = 4 -> lenN (enc_groupContext (gr_context g)) + lenN data < 2 ^ 26 ->
  exists raw, createApplicationMessage g data rnd rg = Ok raw.
Proof. exact @application_total. Qed.
Print Assumptions C76_members_can_send.

Theorem C76_members_can_invite :
  forall (C : crypto), crypto_ok C -> compact C -> forall g kps rs ri rh rg,
  obtained g -> can_sign g -> can_invite g kps -> lenN rg = 4 ->
  exists g1 w raw, createWelcome g kps rs ri rh rg = (g1, Ok (w, raw)).
Proof. exact @welcome_total. Qed.
Print Assumptions C76_members_can_invite.

(** Bob, in a group of three, can write, and can invite Dave. *)
Example C76_example : compact toy /\ @obtained toy gb /\ @can_sign toy gb /\ @can_invite toy gb [kpp_public dave] /\
  lenN (enc_groupContext (gr_context gb)) + lenN (str "hello") < 2 ^ 26 /\ lenN (enc_leafNode (kp_leafNode (kpp_public dave))) < 2 ^ 26.
Proof.
  split; [exact toy_compact|]. split; [exact gb_obtained|]. split; [exact gb_signs|]. split; [exact dave_invited|]. split; vm_compute; reflexivity.
Qed.
