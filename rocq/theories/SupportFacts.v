(** Lemmas about SpecSupport.v. *)
From Verif Require Import KeyFacts IntegrityFacts JoinFacts.
From Verif Require Export SpecSupport CommitTreeFacts.

Section WithCrypto.
Context {C : crypto}.
Theorem commit_extensions g raw now ac c g' li ps : obtained g -> accepts_commit g raw now ac c g' ->
  fc_sender (ac_content ac) = SMember li -> commits g li c ps ->
  extensions_listed (gr_value g) -> (forall l, brought ps l -> leaf_lists_extensions l) -> extensions_listed (gr_value g').
Proof.
  intros O H Hs Hc D F. pose proof (obtained_sane g O) as Sa. destruct (commit_tree _ _ _ _ _ _ _ _ Sa H Hs Hc) as (v & W & V & Hp).
  assert (D1 : extensions_listed v).
  { intros j m Hm. destruct (vapply_from _ _ _ (sane_shape _ Sa) V j m Hm) as [Ho|[Ho|Ho]]; [exact (D _ _ Ho)| |]; apply F; [right; eauto|now left]. }
  destruct (tree_after_commit _ _ _ _ _ _ _ _ O H Hs Hc) as (t & _ & Hq).
  destruct (c_path c) as [up|]; [|now rewrite Hp].
  destruct Hq as ((_ & _ & He & _) & _). destruct Hp as (k & sn & S0 & S' & M & _). destruct (merged_leaf _ _ _ _ _ _ S0 S' M) as [E1 E2].
  intros j m Hm. destruct (N.eq_dec j (designated li)) as [->|Hj].
  - rewrite E1 in Hm. injection Hm as <-. exact He.
  - rewrite E2 in Hm by assumption. exact (D1 _ _ Hm).
Qed.
Theorem path_credentials g raw now ac c g' li ps up : obtained g -> accepts_commit g raw now ac c g' ->
  fc_sender (ac_content ac) = SMember li -> commits g li c ps -> c_path c = Some up ->
  exists t, after_proposals (gr_value g) ps t /\
    (lists_once t -> credentials_supported t ->
     (forall j l, leaf_at (gr_value g') j = Some l -> In (cred_type (ln_credential l)) (caps_credentials (ln_capabilities (up_leafNode up)))) ->
     credentials_supported (gr_value g')).
Proof.
  intros O H Hs Hc Hu. destruct (tree_after_commit _ _ _ _ _ _ _ _ O H Hs Hc) as (t & A & Hq). rewrite Hu in Hq.
  destruct Hq as ((_ & _ & _ & Hcr & _) & k & S0 & S' & M). destruct (merged_leaf _ _ _ _ _ _ S0 S' M) as [E1 E2].
  exists t. split; [exact A|]. intros Lo Cs Hall. specialize (Hcr Lo).
  intros i l Hl j m Hm. destruct (N.eq_dec j (designated li)) as [->|Hj].
  - rewrite E1 in Hm. injection Hm as <-. exact (Hall _ _ Hl).
  - rewrite E2 in Hm by exact Hj. destruct (N.eq_dec i (designated li)) as [->|Hi].
    + rewrite E1 in Hl. injection Hl as <-. exact (Hcr _ _ Hm).
    + rewrite E2 in Hl by exact Hi. exact (Cs _ _ Hl _ _ Hm).
Qed.
Theorem joined_extensions w kpp now g : later_than_1970 now -> groupFromWelcome w kpp now = Ok g -> extensions_listed (gr_value g).
Proof.
  intros Hn H. destruct (JoinFacts.joined _ _ _ _ Hn H) as (gi & k & signer & _ & _ & _ & _ & _ & Hi & _).
  destruct Hi as (_ & _ & _ & Hl & _). intros li l E. exact (proj2 (proj2 (Hl _ _ E))).
Qed.
End WithCrypto.
