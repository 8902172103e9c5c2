(** What C105 assumes of the AEAD algorithms. *)
From Verif Require Export Crypto.

(** What is decrypted is no longer than its ciphertext. *)
Definition opens_no_longer (C : crypto) : Prop :=
  forall a k n aad ct pt, cr_aeadOpen C a k n aad ct = Some pt -> lenN pt <= lenN ct.
