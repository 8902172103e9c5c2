(** Private keys that do not belong to the key package: C116. *)
From Verif Require Import MixedSamples.

(** ** C116 *)
(** Whoever can join with a key package joins with any other private encryption
    and signature keys as well, and gets the same group. *)
Theorem C116_joining_notices_wrong_private_keys_refuted :
  forall (C : crypto) w kpp now g encryptionKey signatureKey, groupFromWelcome w kpp now = Ok g ->
  exists g', groupFromWelcome w (with_private kpp encryptionKey signatureKey) now = Ok g' /\ same_but_private_keys g g' /\
    gr_signaturePriv g' = signatureKey.
Proof. exact @joining_blind. Qed.
Print Assumptions C116_joining_notices_wrong_private_keys_refuted.

(** The same goes for founding a group. *)
Theorem C116_founding_notices_wrong_private_keys_refuted :
  forall (C : crypto) groupID kpp rnd g encryptionKey signatureKey, createGroup groupID kpp rnd = Ok g ->
  exists g', createGroup groupID (with_private kpp encryptionKey signatureKey) rnd = Ok g' /\ same_but_private_keys g g' /\
    gr_signaturePriv g' = signatureKey /\ gr_privTree g' = [Some encryptionKey].
Proof. exact @founding_blind. Qed.
Print Assumptions C116_founding_notices_wrong_private_keys_refuted.

(** Whoever signs with a wrong key can still make application messages, and
    every member rejects them. *)
Theorem C116_who_signs_with_a_wrong_key_is_not_heard_refuted :
  forall (C : crypto) g m data rnd rg raw now, crypto_ok C -> obtained g -> signs_as_stranger g -> same_epoch g m -> lenN rg = 4 ->
  createApplicationMessage g data rnd rg = Ok raw -> exists e, unmarshalAndProcessMessage m raw now = (m, Err e).
Proof. exact @strangers_not_heard. Qed.
Print Assumptions C116_who_signs_with_a_wrong_key_is_not_heard_refuted.

(** The private initial key is the right one: it has opened the secrets in the
    Welcome. *)
Theorem C116_wrong_initial_keys_are_noticed_partial :
  forall (C : crypto) w kpp now g, groupFromWelcome w kpp now = Ok g -> init_key_opens w kpp.
Proof. exact @init_key_checked. Qed.
Print Assumptions C116_wrong_initial_keys_are_noticed_partial.

(** Exactly those can sign who join with the right signature key. *)
Theorem C116_right_signature_keys_sign_partial :
  forall (C : crypto) w kpp now g d, wf_keyPackage (kpp_public kpp) -> cipherSuiteDescriptions (w_cipherSuite w) = Some d ->
  groupFromWelcome w kpp now = Ok g ->
  can_sign g <-> sig_pair C (sd_sig d) (ln_signatureKey (kp_leafNode (kpp_public kpp))) (kpp_signatureKey kpp).
Proof. exact @joined_signs. Qed.
Print Assumptions C116_right_signature_keys_sign_partial.

(** Bob joins with the private encryption and signature keys of Carol.  Alice
    rejects what this Bob sends, and accepts it from the Bob with the right
    keys. *)
Example C116_example : exists e,
  @groupFromWelcome toy (fst (snd firstWelcome)) bob clock = Ok gb /\ @groupFromWelcome toy (fst (snd firstWelcome)) mixed clock = Ok gm /\
  @signs_as_stranger toy gm /\ @obtained toy gm /\ same_epoch gm ga /\
  @createApplicationMessage toy gm (str "hello") [] (str "efgh") = Ok gmSays /\
  @unmarshalAndProcessMessage toy ga gmSays clock = (ga, Err e) /\
  @createApplicationMessage toy gb (str "hello") [] (str "efgh") = Ok w35raw /\
  @unmarshalAndProcessMessage toy ga w35raw clock = (ga, Ok (Some (str "hello"))).
Proof. exact mixed_example. Qed.
