(** Names of cipher suites: C104. *)
From Verif Require Import NamesFacts.

(** ** C104 *)
(** The names are those of the algorithms that are used. *)
Theorem C104_the_name_of_a_suite_spells_its_algorithms :
  forall cs d, cipherSuiteDescriptions cs = Some d -> cipherSuiteString cs = spelled d.
Proof. exact names_spell. Qed.
Print Assumptions C104_the_name_of_a_suite_spells_its_algorithms.

Theorem C104_other_suites_are_shown_as_numbers :
  forall cs, cipherSuiteDescriptions cs = None -> exists s, cipherSuiteString cs = ("<" ++ s ++ ">")%string /\ in_digits s cs.
Proof. exact names_number. Qed.
Print Assumptions C104_other_suites_are_shown_as_numbers.

Theorem C104_different_suites_have_different_names :
  forall cs cs', cipherSuiteString cs = cipherSuiteString cs' -> cs = cs'.
Proof. exact names_differ. Qed.
Print Assumptions C104_different_suites_have_different_names.

Example C104_example :
  cipherSuiteString 7 = "MLS_256_DHKEMP384_AES256GCM_SHA384_P384"%string /\ cipherSuiteString 60175 = "<60175>"%string /\
  cipherSuiteString 0 = "<0>"%string /\ cipherSuiteDescriptions 60175 = None.
Proof. vm_compute. repeat split. Qed.

(** ** C60 *)
(** The identity in a generated key package is the one that was given. *)
Theorem C60_key_packages_carry_the_identity :
  forall (C : crypto) cs id t0 t1 r1 r2 r3 r4 r5 kpp raw k, crypto_ok C -> u16 cs ->
  generateKeyPairPackage cs (newBasicCredential id) t0 t1 r1 r2 r3 r4 r5 = Ok kpp ->
  keyPackageBytes (kpp_public kpp) = Ok raw -> unmarshalKeyPackage raw = Ok k ->
  cred_type (ln_credential (kp_leafNode k)) = 1 /\ cred_identity (ln_credential (kp_leafNode k)) = id.
Proof. exact @identity_kept. Qed.
Print Assumptions C60_key_packages_carry_the_identity.
