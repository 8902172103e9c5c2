(** Properties of the key schedule: C28-C32. *)
From Verif Require Import ScheduleFacts ProtectFacts Witness.

(** ** C28 *)
Theorem C28_psk_secret_depends_on_every_psk_id_order_and_count :
  forall (C : crypto) cs ids1 psks1 ids2 psks2 s,
  Forall wf_pskID ids1 -> Forall wf_pskID ids2 -> 0 < lenN ids1 < 65536 -> 0 < lenN ids2 < 65536 ->
  extractPSKSecret cs ids1 psks1 = Ok s -> extractPSKSecret cs ids2 psks2 = Ok s ->
  (ids1 = ids2 /\ psks1 = psks2) \/
  collide (pskSecretQueries cs (combine ids1 psks1)) (pskSecretQueries cs (combine ids2 psks2)).
Proof. exact @psk_secret_binding. Qed.
Print Assumptions C28_psk_secret_depends_on_every_psk_id_order_and_count.

Theorem C28_no_psks_give_the_zero_secret :
  forall (C : crypto) cs s, extractPSKSecret cs [] [] = Ok s -> s = zeroes (secretSize cs).
Proof. exact @psk_secret_none. Qed.
Print Assumptions C28_no_psks_give_the_zero_secret.

Theorem C28_different_numbers_are_an_error :
  forall (C : crypto) cs ids psks, length ids <> length psks -> exists e, extractPSKSecret cs ids psks = Err e.
Proof. exact @psk_secret_mismatch. Qed.
Print Assumptions C28_different_numbers_are_an_error.

Example C28_example :
  let a := PskExternal (str "a") (str "n") in
  let b := PskResumption 1 (str "grp") 7 (str "m") in
  exists s1 s2, @extractPSKSecret toy 1 [a; b] [str "p"; str "q"] = Ok s1 /\
    @extractPSKSecret toy 1 [b; a] [str "q"; str "p"] = Ok s2 /\ bytes_eqb s1 s2 = false.
Proof. eexists. eexists. split; [vm_compute; reflexivity|]. split; [vm_compute; reflexivity|vm_compute; reflexivity]. Qed.

(** ** C29 *)
Theorem C29_secret_tree :
  forall (C : crypto) cs d k encryptionSecret, cipherSuiteDescriptions cs = Some d -> fits k ->
  exists t, deriveSecretTree cs (leaf_count k) encryptionSecret = Ok t /\ lenN t = node_count k /\
    forall p, in_tree k p ->
      nth_error t (N.to_nat (number k p)) = Some (Some (tree_secret cs encryptionSecret p)).
Proof. exact @secret_tree_rfc. Qed.
Print Assumptions C29_secret_tree.

Example C29_example : exists t s, @deriveSecretTree toy 1 4 (str "secret") = Ok t /\
  nth_error t 2 = Some (Some s) /\ number 2 [false; true] = 2 /\
  s = @ExpandWithLabel toy 1 (@ExpandWithLabel toy 1 (str "secret") (str "tree") (str "left") 32) (str "tree") (str "right") 32.
Proof. eexists. eexists. split; [vm_compute; reflexivity|]. split; [reflexivity|]. split; [reflexivity|vm_compute; reflexivity]. Qed.

(** ** C30 *)
Theorem C30_message_secrets_are_separated :
  forall (C : crypto) g k p1 li1 ct1 n1 p2 li2 ct2 n2 s1 s2,
  fits k -> lenN (gr_tree g) = node_count k ->
  length p1 = k -> number k p1 = 2 * li1 -> length p2 = k -> number k p2 = 2 * li2 -> u32 n1 -> u32 n2 ->
  messageSecret g li1 ct1 n1 = Ok s1 -> messageSecret g li2 ct2 n2 = Ok s2 -> rs_secret s1 = rs_secret s2 ->
  (li1 = li2 /\ (ct1 =? 1) = (ct2 =? 1) /\ n1 = n2) \/
  exists enc, deriveSecret (gc_cipherSuite (gr_context g)) (gr_epochSecret g) (str "encryption") = Ok enc /\
    collide (expandAllQueries (gc_cipherSuite (gr_context g)) enc (messageSteps p1 (ct1 =? 1) n1))
            (expandAllQueries (gc_cipherSuite (gr_context g)) enc (messageSteps p2 (ct2 =? 1) n2)).
Proof. exact @message_secret_binding. Qed.
Print Assumptions C30_message_secrets_are_separated.

Theorem C30_keys_and_nonces_have_their_own_label_and_generation :
  forall (C : crypto) cs s key nonce, deriveKey cs s = Ok key -> deriveNonce cs s = Ok nonce ->
  key = ratchet_key cs (rs_secret s) (rs_generation s) /\
  nonce = ratchet_nonce cs (rs_secret s) (rs_generation s) /\
  forall g n1 n2, u32 g -> u32 (rs_generation s) -> u16 n1 -> u16 n2 ->
    (enc_kdfLabel n1 (str "key") (num 4 (rs_generation s)) <> enc_kdfLabel n2 (str "nonce") (num 4 g)) /\
    (g <> rs_generation s ->
       enc_kdfLabel n1 (str "key") (num 4 (rs_generation s)) <> enc_kdfLabel n2 (str "key") (num 4 g) /\
       enc_kdfLabel n1 (str "nonce") (num 4 (rs_generation s)) <> enc_kdfLabel n2 (str "nonce") (num 4 g)).
Proof. exact @key_and_nonce_labels. Qed.
Print Assumptions C30_keys_and_nonces_have_their_own_label_and_generation.

Example C30_example :
  number 2 [false; true] = 2 * 1 /\ lenN (gr_tree ga) = node_count 2 /\
  exists s1 s2 s3, @messageSecret toy ga 1 1 0 = Ok s1 /\ @messageSecret toy ga 1 1 3 = Ok s2 /\ @messageSecret toy ga 1 3 0 = Ok s3 /\
    bytes_eqb (rs_secret s1) (rs_secret s2) = false /\ bytes_eqb (rs_secret s1) (rs_secret s3) = false.
Proof.
  split; [reflexivity|]. split; [vm_compute; reflexivity|]. do 3 eexists.
  split; [vm_compute; reflexivity|]. split; [vm_compute; reflexivity|]. split; [vm_compute; reflexivity|].
  split; [vm_compute; reflexivity|vm_compute; reflexivity].
Qed.

(** ** C31 *)
Theorem C31_confirmed_transcript_hash_commits_to_the_history :
  forall (C : crypto) g1 l1 es1 g2 l2 es2, crypto_ok C ->
  gc_cipherSuite (gr_context g1) = gc_cipherSuite (gr_context g2) ->
  gr_interimTranscriptHash g1 = gr_interimTranscriptHash g2 ->
  commit_log g1 l1 es1 -> commit_log g2 l2 es2 -> length es1 = length es2 -> es1 <> [] ->
  gc_confirmedTranscriptHash (gr_context (after g1 l1)) = gc_confirmedTranscriptHash (gr_context (after g2 l2)) ->
  (map untagged es1 = map untagged es2 /\ map te_tag (removelast es1) = map te_tag (removelast es2)) \/
  collide (transcriptQueries (gc_cipherSuite (gr_context g1)) (gr_interimTranscriptHash g1) es1)
          (transcriptQueries (gc_cipherSuite (gr_context g1)) (gr_interimTranscriptHash g1) es2).
Proof. exact @transcript_binding. Qed.
Print Assumptions C31_confirmed_transcript_hash_commits_to_the_history.

Theorem C31_interim_transcript_hash_commits_to_the_history_and_all_tags :
  forall (C : crypto) g1 l1 es1 g2 l2 es2, crypto_ok C ->
  gc_cipherSuite (gr_context g1) = gc_cipherSuite (gr_context g2) ->
  gr_interimTranscriptHash g1 = gr_interimTranscriptHash g2 ->
  commit_log g1 l1 es1 -> commit_log g2 l2 es2 -> length es1 = length es2 ->
  gr_interimTranscriptHash (after g1 l1) = gr_interimTranscriptHash (after g2 l2) ->
  es1 = es2 \/
  collide (transcriptQueries (gc_cipherSuite (gr_context g1)) (gr_interimTranscriptHash g1) es1)
          (transcriptQueries (gc_cipherSuite (gr_context g1)) (gr_interimTranscriptHash g1) es2).
Proof. exact @interim_transcript_binding. Qed.
Print Assumptions C31_interim_transcript_hash_commits_to_the_history_and_all_tags.

Theorem C31_every_history_has_a_log : forall (C : crypto) l g, exists es, commit_log g l es.
Proof. exact @commit_log_exists. Qed.
Print Assumptions C31_every_history_has_a_log.

Example C31_example :
  (exists e, @commit_log toy ga [(w55raw, clock)] [e]) /\ (exists e, @commit_log toy ga [(w46raw, clock)] [e]) /\
  gc_confirmedTranscriptHash (gr_context (@after toy ga [(w55raw, clock)])) <>
  gc_confirmedTranscriptHash (gr_context (@after toy ga [(w46raw, clock)])).
Proof.
  split; [|split].
  - eexists. eapply cl_commit; [apply acceptedPublic_commit, w55_accepted|constructor].
  - eexists. eapply cl_commit; [apply acceptedPublic_commit, w46_accepted|constructor].
  - vm_compute. discriminate.
Qed.

(** ** C32 *)
Theorem C32_epoch_secret_commits_to_the_group_context :
  forall (C : crypto) ctx1 joiner1 psk1 ctx2 joiner2 psk2 s, crypto_ok C -> wf_groupContext ctx1 -> wf_groupContext ctx2 ->
  extractEpochSecret ctx1 joiner1 psk1 = Ok s -> extractEpochSecret ctx2 joiner2 psk2 = Ok s ->
  (ctx1 = ctx2 /\ joiner1 = joiner2 /\ psk1 = psk2) \/
  collide (scheduleQueries (str "epoch") ctx1 psk1 joiner1) (scheduleQueries (str "epoch") ctx2 psk2 joiner2).
Proof. exact @epoch_secret_binding. Qed.
Print Assumptions C32_epoch_secret_commits_to_the_group_context.

Theorem C32_joiner_secret_commits_to_the_group_context :
  forall (C : crypto) ctx1 init1 commit1 ctx2 init2 commit2 s, crypto_ok C -> wf_groupContext ctx1 -> wf_groupContext ctx2 ->
  extractJoinerSecret ctx1 init1 commit1 = Ok s -> extractJoinerSecret ctx2 init2 commit2 = Ok s ->
  (ctx1 = ctx2 /\ init1 = init2 /\ commit1 = commit2) \/
  collide (scheduleQueries (str "joiner") ctx1 commit1 init1) (scheduleQueries (str "joiner") ctx2 commit2 init2).
Proof. exact @joiner_secret_binding. Qed.
Print Assumptions C32_joiner_secret_commits_to_the_group_context.

Theorem C32_kdf_labels_are_injective :
  forall l1 c1 n1 l2 c2 n2 e, u16 n1 -> u16 n2 ->
  putKdfLabel l1 c1 n1 = Ok e -> putKdfLabel l2 c2 n2 = Ok e -> l1 = l2 /\ c1 = c2 /\ n1 = n2.
Proof. exact putKdfLabel_inj. Qed.
Print Assumptions C32_kdf_labels_are_injective.

Example C32_example :
  let ctx e := mkGroupContext 1 1 (str "grp") e (str "tree") (str "hash") [] in
  wf_groupContext (ctx 3) /\ exists s1 s2, @extractEpochSecret toy (ctx 3) (str "j") (str "p") = Ok s1 /\
    @extractEpochSecret toy (ctx 4) (str "j") (str "p") = Ok s2 /\ bytes_eqb s1 s2 = false.
Proof.
  split; [repeat split; constructor|]. eexists. eexists.
  split; [vm_compute; reflexivity|]. split; [vm_compute; reflexivity|vm_compute; reflexivity].
Qed.
