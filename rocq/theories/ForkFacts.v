(** Proofs about members with a common past (C103). *)
From Verif Require Export SpecFork OriginFacts ScheduleFacts.
From Verif Require Import TypesFacts MessageFacts GroupFacts.
From Coq Require Import Lia.

Section WithCrypto.
Context {C : crypto}.

Lemma log_count g l es : commit_log g l es -> commits_accepted g l (lenN es).
Proof.
  intros H. induction H as [g|g raw now r es ac c g' A H IH|g raw now r es A H IH].
  - constructor.
  - replace (lenN (entry ac :: es)) with (lenN es + 1) by (unfold lenN; cbn [length]; lia). econstructor; eauto.
  - apply ca_other; auto.
Qed.
Lemma after_lawful l g : lawful g -> lawful (after g l).
Proof.
  revert g. induction l as [|[raw now] l IH]; intros g H; [exact H|]. cbn [after]. apply IH.
  destruct (unmarshalAndProcessMessage g raw now) as [g1 r] eqn:E. exact (lawful_message g raw now g1 r H E).
Qed.
Lemma lawful_epoch g : lawful g -> u64 (gc_epoch (gr_context g)).
Proof. intros L. destruct (lawful_holds _ L) as [_ (_ & _ & E & _) _ _]. exact E. Qed.

Lemma equal_counts e a b : a < 2 ^ 64 -> b < 2 ^ 64 -> (e + a) mod 2 ^ 64 = (e + b) mod 2 ^ 64 -> a = b.
Proof.
  intros A B E. pose proof (N.div_mod (e + a) (2 ^ 64)) as D1. pose proof (N.div_mod (e + b) (2 ^ 64)) as D2. rewrite E in D1.
  set (r := (e + b) mod 2 ^ 64) in *. set (p := (e + a) / 2 ^ 64) in *. set (q := (e + b) / 2 ^ 64) in *.
  change (2 ^ 64) with 18446744073709551616 in *. lia.
Qed.

Theorem one_context_one_past g m l es l' es' : crypto_ok C -> lawful g -> lawful m -> agree g m ->
  commit_log g l es -> commit_log m l' es' -> lenN es < 2 ^ 64 -> lenN es' < 2 ^ 64 ->
  gr_context (after g l) = gr_context (after m l') -> same_past g es es'.
Proof.
  intros OK Lg Lm (S1 & _ & S3 & _) H H' B B' E.
  destruct (history l g (lenN es) (lawful_epoch g Lg) (log_count _ _ _ H)) as (_ & _ & _ & _ & _ & E1).
  destruct (history l' m (lenN es') (lawful_epoch m Lm) (log_count _ _ _ H')) as (_ & _ & _ & _ & _ & E2).
  rewrite E, E2, S1 in E1. apply equal_counts in E1; auto.
  assert (Ll : length es = length es') by (unfold lenN in E1; lia).
  destruct es as [|e es].
  - destruct es' as [|]; [left; split; reflexivity|discriminate].
  - apply (transcript_binding g l (e :: es) m l' es' OK); auto; try congruence.
Qed.

Theorem message_from_one_past did m l' es' raw now m' r : crypto_ok C -> lawful m -> commit_log m l' es' -> lenN es' < 2 ^ 64 ->
  unmarshalAndProcessMessage (after m l') raw now = (m', r) -> m' <> after m l' \/ is_ok r = true ->
  exists ac li key, carries (after m l') raw ac /\ sent_with_key (after m l') ac li key /\
    let o := SignFramedContent (ac_wireFormat ac) (ac_content ac) (gr_context (after m l')) in
    VerifyWithLabel (gc_cipherSuite (gr_context m)) key (signed_label o) (signed_content o) (ad_signature (ac_auth ac)) /\
    forall priv, vouched did priv o -> exists gs, gr_signaturePriv gs = priv /\ gr_myLeafIndex gs = li /\ shares_past m es' gs /\
      ((exists data rs rg, did (CallMessage gs data rs rg) /\ fc_body (ac_content ac) = BApplication data) \/
       (exists kps rs ri rh rg, did (CallWelcome gs kps rs ri rh rg) /\ fc_body (ac_content ac) = additions kps)).
Proof.
  intros OK L H B E Hor. destruct (messages_made did _ _ _ _ _ (after_lawful l' m L) E Hor) as (ac & li & key & Hc & Hk & Hv & Hm).
  exists ac, li, key. cbv zeta in *. splits; auto.
  - destruct (history l' m (lenN es') (lawful_epoch m L) (log_count _ _ _ H)) as (_ & Ec & _). cbv zeta in Ec. now rewrite Ec in Hv.
  - intros priv V. destruct (Hm priv V) as (gs & _ & P & X & I & _ & _ & M). exists gs. splits; auto.
    + intros g l es Lg A Hl Bl ->. exact (one_context_one_past g m l es l' es' OK Lg L A Hl H Bl B X).
    + destruct (fc_body (ac_content ac)) as [data|p|c].
      * destruct M as (rs & rg & D). left. exists data, rs, rg. auto.
      * destruct M.
      * destruct M as (kps & rs & ri & rh & rg & D & Eb). right. exists kps, rs, ri, rh, rg. auto.
Qed.
Theorem data_from_one_past did m l' es' raw now m' d : crypto_ok C -> lawful m -> commit_log m l' es' -> lenN es' < 2 ^ 64 ->
  unmarshalAndProcessMessage (after m l') raw now = (m', Ok (Some d)) ->
  exists ac li key, carries (after m l') raw ac /\ sent_with_key (after m l') ac li key /\
    let o := SignFramedContent (ac_wireFormat ac) (ac_content ac) (gr_context (after m l')) in
    VerifyWithLabel (gc_cipherSuite (gr_context m)) key (signed_label o) (signed_content o) (ad_signature (ac_auth ac)) /\
    forall priv, vouched did priv o -> exists gs rs rg, did (CallMessage gs d rs rg) /\ gr_signaturePriv gs = priv /\
      gr_myLeafIndex gs = li /\ shares_past m es' gs.
Proof.
  intros OK L H B E. destruct (data_made did _ _ _ _ _ (after_lawful l' m L) E) as (ac & li & key & Hc & Hk & Hv & Hm).
  exists ac, li, key. cbv zeta in *. splits; auto.
  - destruct (history l' m (lenN es') (lawful_epoch m L) (log_count _ _ _ H)) as (_ & Ec & _). cbv zeta in Ec. now rewrite Ec in Hv.
  - intros priv V. destruct (Hm priv V) as (gs & rs & rg & D & P & X & I). exists gs, rs, rg. splits; auto.
    intros g l es Lg A Hl Bl ->. exact (one_context_one_past g m l es l' es' OK Lg L A Hl H Bl B X).
Qed.
End WithCrypto.
