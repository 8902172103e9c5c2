(** Members with a common past: C103. *)
From Verif Require Import ForkSamples.

(** ** C103 *)
Theorem C103_one_group_context_comes_from_one_list_of_commits :
  forall (C : crypto) g m l es l' es', crypto_ok C -> lawful g -> lawful m -> agree g m ->
  commit_log g l es -> commit_log m l' es' -> lenN es < 2 ^ 64 -> lenN es' < 2 ^ 64 ->
  gr_context (after g l) = gr_context (after m l') -> same_past g es es'.
Proof. exact @one_context_one_past. Qed.
Print Assumptions C103_one_group_context_comes_from_one_list_of_commits.

Theorem C103_messages_that_are_acted_on_come_from_members_with_the_same_past :
  forall (C : crypto) did m l' es' raw now m' r, crypto_ok C -> lawful m -> commit_log m l' es' -> lenN es' < 2 ^ 64 ->
  unmarshalAndProcessMessage (after m l') raw now = (m', r) -> m' <> after m l' \/ is_ok r = true ->
  exists ac li key, carries (after m l') raw ac /\ sent_with_key (after m l') ac li key /\
    let o := SignFramedContent (ac_wireFormat ac) (ac_content ac) (gr_context (after m l')) in
    VerifyWithLabel (gc_cipherSuite (gr_context m)) key (signed_label o) (signed_content o) (ad_signature (ac_auth ac)) /\
    forall priv, vouched did priv o -> exists gs, gr_signaturePriv gs = priv /\ gr_myLeafIndex gs = li /\ shares_past m es' gs /\
      ((exists data rs rg, did (CallMessage gs data rs rg) /\ fc_body (ac_content ac) = BApplication data) \/
       (exists kps rs ri rh rg, did (CallWelcome gs kps rs ri rh rg) /\ fc_body (ac_content ac) = additions kps)).
Proof. exact @message_from_one_past. Qed.
Print Assumptions C103_messages_that_are_acted_on_come_from_members_with_the_same_past.

Theorem C103_data_that_is_delivered_comes_from_a_member_with_the_same_past :
  forall (C : crypto) did m l' es' raw now m' d, crypto_ok C -> lawful m -> commit_log m l' es' -> lenN es' < 2 ^ 64 ->
  unmarshalAndProcessMessage (after m l') raw now = (m', Ok (Some d)) ->
  exists ac li key, carries (after m l') raw ac /\ sent_with_key (after m l') ac li key /\
    let o := SignFramedContent (ac_wireFormat ac) (ac_content ac) (gr_context (after m l')) in
    VerifyWithLabel (gc_cipherSuite (gr_context m)) key (signed_label o) (signed_content o) (ad_signature (ac_auth ac)) /\
    forall priv, vouched did priv o -> exists gs rs rg, did (CallMessage gs d rs rg) /\ gr_signaturePriv gs = priv /\
      gr_myLeafIndex gs = li /\ shares_past m es' gs.
Proof. exact @data_from_one_past. Qed.
Print Assumptions C103_data_that_is_delivered_comes_from_a_member_with_the_same_past.

Example C103_example :
  crypto_ok toy /\ @lawful toy ga /\ @lawful toy gc /\ agree gc ga /\
  (exists e, @commit_log toy ga [(w55raw, clock)] [e]) /\ (exists e, @commit_log toy gc [(w55raw, clock)] [e]) /\
  @after toy ga [(w55raw, clock)] = aliceAfterPath /\ @after toy gc [(w55raw, clock)] = carolAfterPath /\
  @unmarshalAndProcessMessage toy aliceAfterPath w103raw clock = (aliceAfterPath, Ok (Some (str "hello"))) /\
  @vouched toy (eq carolSays) (gr_signaturePriv carolAfterPath)
    (SignFramedContent 2 (member_content carolAfterPath (BApplication (str "hello"))) (gr_context aliceAfterPath)) /\
  (exists e, @commit_log toy ga [(w46raw, clock)] [e]) /\
  gr_context (@after toy ga [(w46raw, clock)]) <> gr_context carolAfterPath /\
  (let g := @after toy ga [(w46raw, clock)] in exists e, @unmarshalAndProcessMessage toy g w103raw clock = (g, Err e)).
Proof. exact fork_example. Qed.
