(** Names of cipher suites (ciphersuite.go:37-56) and basic credentials
    (crypto.go:32-39). *)
From Coq Require Export DecimalString.
From Verif Require Export Crypto.

(** fmt.Sprintf with the verb %d, for numbers that are not negative *)
Definition decimal (n : N) : string := NilZero.string_of_uint (N.to_uint n).

(** ciphersuite.go:38-56 CipherSuite.String *)
Definition cipherSuiteString (cs : N) : string :=
  match cs with
  | 1 => "MLS_128_DHKEMX25519_AES128GCM_SHA256_Ed25519"
  | 2 => "MLS_128_DHKEMP256_AES128GCM_SHA256_P256"
  | 3 => "MLS_128_DHKEMX25519_CHACHA20POLY1305_SHA256_Ed25519"
  | 4 => "MLS_256_DHKEMX448_AES256GCM_SHA512_Ed448"
  | 5 => "MLS_256_DHKEMP521_AES256GCM_SHA512_P521"
  | 6 => "MLS_256_DHKEMX448_CHACHA20POLY1305_SHA512_Ed448"
  | 7 => "MLS_256_DHKEMP384_AES256GCM_SHA384_P384"
  | _ => "<" ++ decimal cs ++ ">"
  end%string.

(** crypto.go:34-39 NewBasicCredential *)
Definition newBasicCredential (identity : bytes) : credential := mkCredential 1 identity [].
