From Verif Require Import VectorChecks.
Require Import ExtrOcamlBasic ExtrOcamlZBigInt ExtrOcamlNatInt.
Extract Constant N.land => "Big_int_Z.and_big_int".
Extract Constant N.lor => "Big_int_Z.or_big_int".
Extract Constant N.lxor => "Big_int_Z.xor_big_int".
Extract Constant N.shiftr => "(fun a n -> Big_int_Z.shift_right_big_int a (Big_int_Z.int_of_big_int n))".
Extract Constant N.shiftl => "(fun a n -> Big_int_Z.shift_left_big_int a (Big_int_Z.int_of_big_int n))".
Extract Constant N.testbit => "(fun a n -> Z.testbit a (Z.to_int n))".
Extract Constant N.div_eucl => "(fun a b -> if Z.equal b Z.zero then (Z.zero, a) else Z.ediv_rem a b)".
Extract Constant N.modulo => "(fun a b -> if Z.equal b Z.zero then a else Z.erem a b)".
Extract Constant N.div => "(fun a b -> if Z.equal b Z.zero then Z.zero else Z.ediv a b)".
Extract Constant N.pow => "(fun a b -> Z.pow a (Z.to_int b))".
Extract Constant N.to_nat => "Z.to_int".
Extract Constant N.of_nat => "Z.of_int".
Extraction "m.ml" checkDeserialization checkTreeMath checkMessages checkCryptoBasics checkPSKSecret checkKeySchedule checkTranscriptHashes checkSecretTree checkTreeValidation checkTreeKEM checkTreeOperations checkWelcome checkMessageProtection checkPassiveClient real Byte.of_N.
