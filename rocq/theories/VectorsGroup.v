(** A selection of the test vectors of the project (/repo/testdata), run on the
    model when this file is built: labelled primitives, message protection and
    Welcomes.  These are tests, not proofs. *)
From Verif Require Import VectorChecks.
Open Scope N_scope.

(** testdata/crypto-basics.json, vector 0 *)
Definition crypto_basics_0 : json := Eval vm_compute in
 JObject [("cipher_suite"%string, JNum 1);
  ("derive_secret"%string, JObject [("label"%string, JBytes (str "DeriveSecret"));
  ("out"%string, JBytes (hex "3b08c195a246c4ad469c1d11c10e62890d8fa6b684494ff925409efdb1ff0464"));
  ("secret"%string, JBytes (hex "1a9ce178a53f8752d2513c27efe9c85133f6c0a97f7b35ac200695024a77228e"))]);
  ("derive_tree_secret"%string, JObject [("generation"%string, JNum 2694881440);
  ("label"%string, JBytes (str "DeriveTreeSecret"));
  ("length"%string, JNum 32);
  ("out"%string, JBytes (hex "8461f3ccc603eae52149a23a4134d29c880a1ad1ba70441e5d586e3521ec7b25"));
  ("secret"%string, JBytes (hex "5133c6f8bad297f5d3beacdf477f0c45ec51b02de659d305220c5f9385c6eb43"))]);
  ("encrypt_with_label"%string, JObject [("ciphertext"%string, JBytes (hex "15c80ea2bc37db221baa530ef5aea88650f0ce0f262803d6f78f3a1392f7ccd960eff94ca081ee54efa4c3acfa0eb591"));
  ("context"%string, JBytes (hex "26347dd7f218d1de8673d6a66646ce06ac5fd3aa8d5c33f65d86aeefdcf4a31e"));
  ("kem_output"%string, JBytes (hex "0a144e8fbf2d6dcf6fe9d2e2b8aeca5461ff5b0ea9c0ede1040c3dc7ed1dfd1c"));
  ("label"%string, JBytes (str "EncryptWithLabel"));
  ("plaintext"%string, JBytes (hex "8f55dd30f03d64335c22b53ea7670bb1becf49b04021f706368fe93eeb358f46"));
  ("priv"%string, JBytes (hex "fb1ade7939987ff12a9d620772b1f9f7caeba26f8a3ecea9617d9402cd862444"));
  ("pub"%string, JBytes (hex "ecea6564da58d6c6cff6c733bd4ae0815b1f60bb911b73e4ef1d06263ec4ce58"))]);
  ("expand_with_label"%string, JObject [("context"%string, JBytes (hex "2ff8c1f9d9c1248f82e372ddb5791c771695e01882abca6a64097bd2f04c971f"));
  ("label"%string, JBytes (str "ExpandWithLabel"));
  ("length"%string, JNum 16);
  ("out"%string, JBytes (hex "c1e8eb360391526c0c64039f13e0c5b1"));
  ("secret"%string, JBytes (hex "1499360a561335f4ef51d0a1b0d586900dc8007ae405b1ab79bf4207bb3d67e4"))]);
  ("ref_hash"%string, JObject [("label"%string, JBytes (str "RefHash"));
  ("out"%string, JBytes (hex "e8027fffc5f9bb469f29172538dc0f3a78f14f323495bbd2217eba7a77fb242a"));
  ("value"%string, JBytes (hex "40312db83f651883c05ab26fa12c6af61930015c81947cfd0f129e6d99210bb2"))]);
  ("sign_with_label"%string, JObject [("content"%string, JBytes (hex "cd289cc7ba2869f64f3c32ffd133f500d17abace919a5ffe7faa974200d81932"));
  ("label"%string, JBytes (str "SignWithLabel"));
  ("priv"%string, JBytes (hex "a2f640dd5005fcad6adb8e9bd8b60d70946bb802e1e788307929fdac81e1ec74"));
  ("pub"%string, JBytes (hex "85600e54e5c2919ccbd0742126e5d837cf7a2ba50d75a69b3f35dcfe4a50ffe2"));
  ("signature"%string, JBytes (hex "996bd223ddb4d55a2b57d85cb2944f21facc95696053ddf66d590060fdc719f4a26c6212ce605414e0d5e66a55921dd99d11122218c35bc23408b0076e8bc40b"))])].
Definition crypto_basics_0_failures : failures := Eval vm_compute in checkCryptoBasics (C := real) crypto_basics_0.
Example crypto_basics_0_passes : crypto_basics_0_failures = []. Proof. reflexivity. Qed.

(** testdata/welcome.json, vector 0 *)
Definition welcome_0 : json := Eval vm_compute in
 JObject [("cipher_suite"%string, JNum 1);
  ("init_priv"%string, JBytes (hex "c697caf7ae54f695f9411d9dc81a206b91fabcaac62a13763213a045ecd72b1e"));
  ("key_package"%string, JBytes (hex "00010005000100012028b2cd6417984dc4708c61a1cce7c0f11d181bd36d6f7a610ea21cb96f79ba6020275d9e6337b11a5e21ba755f2353053a500103efa1c5ac7c07d3a78f8817ad2d203de79c7e370156ce25a88d897a8ea7c8f90fea1f71fbeb5f31855312d8750007000120b640fbb0df8e646b29c83c5ed08aea89f72ab108922827ea76cd3b917d6d99420200010c00010002000300040005000600000400010002010000000000000000ffffffffffffffff004040fd81837a40a9ba774bb44db665081f4d0ff2a8f680ce5c902b17acc4ae6d9a14b9d4e9b4f8e7d74af8ff42032ec9caadf267e85931b550eebbe480150d4b9b0a0040401ec696ab731d5a7b1092b0db9912fe35086e188ce2946996bdf3cec463849f1a32f653b6e246b8b85a486ce3f604891501052c3d7bbee2155fff6a367e5a1f03"));
  ("signer_pub"%string, JBytes (hex "4e61ed19803e994259745f59aabd3f0be3c171ae99d49a29974b5a5cee134241"));
  ("welcome"%string, JBytes (hex "0001000300014076208e1faada70f08b91ef7f7f79ed1da917d9ce3cea5e5ce22e4a8b10f4311559dd20a87de170e9dc54bd4a8a48f38cd5c949f0cc82fce8ea72232417975ec6bad95033f6701d639694cbb51a4b2d0191f432add5267eea7b33f3c0c7edc65a28650adb0008f08b84a420bf1070516cb079a8e5c4159a40e80bee12b78b86d125155b035f52e8a131469cf1b9645d70e270d3aa21c04945fa80b7fea30ccfceb436e4df23558cdc1a6cd435db3199314795b7c488b4bf0855cb589ad9c7eb43ea8bc9edef6b85ad1c97451b706e5de27aabe664dca132a288b3fc091b9100e470fb506833aaa4ab279a44c92c21e34dd295b6e49978d8c93cf20537bebc1a467177500d7fe6b127d5b3d13bf038cd2e8ec00937db6fd4996b2f2e416b810d0822b77bd71b59bf1e486c1ad74da0de9872f839b63928a03ae11e4dfacb7cf27ea2c35ae233d9c63fe901ddd4e7be7e643912bb39ad8a728792753bc8314317388e"))].
Definition welcome_0_failures : failures := Eval vm_compute in checkWelcome (C := real) welcome_0.
Example welcome_0_passes : welcome_0_failures = []. Proof. reflexivity. Qed.

(** testdata/message-protection.json, vector 0 *)
Definition message_protection_0 : json := Eval vm_compute in
 JObject [("cipher_suite"%string, JNum 1);
  ("group_id"%string, JBytes (hex "42e4c3a73738d838cb4f9dc550cb81406206943f9e6870ee150f2000ae8aa780"));
  ("epoch"%string, JNum 1184274);
  ("tree_hash"%string, JBytes (hex "a257a326c7b632ce7ccdea8d3a3b5c3c2daa53a21029b3673ee05e9a3cea5934"));
  ("confirmed_transcript_hash"%string, JBytes (hex "59b10f7a137e853c4ef7ce43d2fe0a481bb80652f648c5efab11c3141a1ba60c"));
  ("signature_priv"%string, JBytes (hex "3091b9149866552f1bc8452aacd58b0a0b2ef87f2bb606d03ef6c06da0ca5cfc"));
  ("signature_pub"%string, JBytes (hex "62087f5b047e5292d5d29ded0977442788633c196a607988238b8c4374b4b4be"));
  ("encryption_secret"%string, JBytes (hex "4db33574f514024e61e2a15e71527182f62561d84b4d8230501b623d848df998"));
  ("sender_data_secret"%string, JBytes (hex "b21dfbbf69da2fec93299d8bd0795ad0aec22b42d83ff10a2e5e3f997672b8b3"));
  ("membership_key"%string, JBytes (hex "1f338b39337d019ab52c797bc836875998387e88fe711287df2258bc8f9967fb"));
  ("proposal"%string, JBytes (hex "000300000002"));
  ("proposal_priv"%string, JBytes (hex "000100022042e4c3a73738d838cb4f9dc550cb81406206943f9e6870ee150f2000ae8aa780000000000012121202001cf8f3a79aa9f3cbc60ea1e886e46dd6dcbcde71e80f7e46a68b88edeb4058b7761be40499be70b7a0b5f4e2b151b20250153fe6af4599853b1b351ad6c68a7d7490cd58301a3ed08b2bfc254feee2f14f63df0bafa7994b6957dc449384b06b6cd24bd228d8870d5ba8a346fcca8dcaacadd95959443c"));
  ("proposal_pub"%string, JBytes (hex "000100012042e4c3a73738d838cb4f9dc550cb81406206943f9e6870ee150f2000ae8aa7800000000000121212010000000100020003000000024040932e43773e992f7b0c8ec9d82f72c9395ad62120f19a764e50ec150ca48ba94dbb139a1f9c6901aab353d67f97f68210027818f634ac9cf8a738fe35b7404906201be6bf2e5e22e38a6f908d534a04ae231c3f6de72750d74bbf626a2c0bfcf1ec"));
  ("commit"%string, JBytes (hex "404601000401205ff3e28b8183cba127d0b74459b5d8a81286c299ba02d68c7d62f6101c3782dc20e0fbf69e4e80c4b2b8d43ffac9c0863a25300d0a6880aa9287d3916c467ae3ab00"));
  ("commit_priv"%string, JBytes (hex "000100022042e4c3a73738d838cb4f9dc550cb81406206943f9e6870ee150f2000ae8aa780000000000012121203001c97a2cc4f511ed694db9bd5ca4aeb06b5eb5fb92765f41feeece83a4040bc6c0e40ad742111fe68c17b0848c047f6909e0675dce492f4e2635fda105d20aac769b1b3916267a396235cbf955e1843072f62466f6c328f535bf7ecc326c224ae1b24c574ba543c0d1dc27328dfe10b221a43c29a0ea76e3e475980995e92cdf0c7b21bde1fcbb6bc5cc92b920b4b8bced424ccd518d2b7e738fe4c582040ef866cbe8afe72e76a8bae2e19e20a5c901d12baf43c2f01d98813a775ec5c6fdba27c8ccd1cc024dc95e4138bf8dd0135998c598240a0c87d5fe225b2"));
  ("commit_pub"%string, JBytes (hex "000100012042e4c3a73738d838cb4f9dc550cb81406206943f9e6870ee150f2000ae8aa780000000000012121201000000010003404601000401205ff3e28b8183cba127d0b74459b5d8a81286c299ba02d68c7d62f6101c3782dc20e0fbf69e4e80c4b2b8d43ffac9c0863a25300d0a6880aa9287d3916c467ae3ab0040403fe4fb435c134950173cf4244a899e3a3fedb6d77dde1279b8a1b03a507109661d82e6e08f9a476ebad8983ce83a1218dbf4df0b538e88d3d8ffb0cbc5fffb0120b613679a0814d9ec772f95d778c35fc5ff1697c493715653c6c712144292c5ad2096f30e3de73f8f49037897e7e2ff6964857d7e662c6823cea2b5c4b78c3b03a2"));
  ("application"%string, JBytes (hex "a1ab266714fdb6d121f4c7f248271fb824a3e61dd3f91835e68fc8789f17f754a86233781fb59d23811b"));
  ("application_priv"%string, JBytes (hex "000100022042e4c3a73738d838cb4f9dc550cb81406206943f9e6870ee150f2000ae8aa780000000000012121201001cf18ad2e0ad4462390d72714d68b2a845ba336c3e8d398d21334f8d0f407dab47ce77c5fff3107b2f4e4bf99936c0ec680364333403663b7a955708a73d91e921a4fb3ffd50292a51ec31d4ec684231eb6f765cfbd5cca5b78fbe42bbf1b04dd1682fc87678b3a4f1599770839b171caff15e5e264957f3d16c31ba3ca16416f4665115244291536ddb438528cdb8502de654be9ca093915d36b1ab"))].
Definition message_protection_0_failures : failures := Eval vm_compute in checkMessageProtection (C := real) message_protection_0.
Example message_protection_0_passes : message_protection_0_failures = []. Proof. reflexivity. Qed.
