(** What is accepted in one epoch is rejected in the later ones. *)
From Verif Require Import GroupFacts SpecGroup.

Section WithCrypto.
Context {C : crypto}.

Lemma accepted_names g raw now g' d : unmarshalAndProcessMessage g raw now = (g', Ok d) ->
  exists m, unmarshal getMlsMessage raw = Ok m /\ names_group m = Some (gc_groupID (gr_context g), gc_epoch (gr_context g)).
Proof.
  intros H. destruct (unmarshal getMlsMessage raw) as [m|e|p|] eqn:E;
    [|unfold unmarshalAndProcessMessage in H; rewrite E in H; discriminate..].
  exists m. split; [reflexivity|]. destruct (names_group m) as [[gid e]|] eqn:En.
  - pose proof (wrong_group g raw now m gid e E En) as W.
    destruct (list_eq_dec Byte.byte_eq_dec gid (gc_groupID (gr_context g))) as [->|Hg].
    + destruct (N.eq_dec e (gc_epoch (gr_context g))) as [->|He]; [reflexivity|].
      destruct (W (or_intror He)) as [err Er]. rewrite Er in H. discriminate.
    + destruct (W (or_introl Hg)) as [err Er]. rewrite Er in H. discriminate.
  - unfold unmarshalAndProcessMessage in H. rewrite E in H. destruct m; cbn in En; discriminate.
Qed.
Theorem rejected_ever_after l g n raw now g1 d now' : u64 (gc_epoch (gr_context g)) ->
  unmarshalAndProcessMessage g raw now = (g1, Ok d) -> commits_accepted g l n -> 0 < n -> n < 2 ^ 64 ->
  exists err, unmarshalAndProcessMessage (after g l) raw now' = (after g l, Err err).
Proof.
  intros U A Hn P L. apply accepted_names in A. destruct A as (m & Em & Nm). eapply wrong_group; eauto. right.
  pose proof (history l g n U Hn) as (_ & _ & _ & _ & _ & He). rewrite He. intros K. unfold u64 in U.
  assert (E64 : 2 ^ 64 = 18446744073709551616) by reflexivity. rewrite E64 in *.
  destruct (N.lt_ge_cases (gc_epoch (gr_context g) + n) 18446744073709551616) as [Lo|Hi].
  - rewrite N.mod_small in K by assumption. lia.
  - pose proof (N.div_mod (gc_epoch (gr_context g) + n) 18446744073709551616 ltac:(lia)) as D.
    assert ((gc_epoch (gr_context g) + n) / 18446744073709551616 = 1).
    { symmetry. apply (N.div_unique _ _ 1 (gc_epoch (gr_context g) + n - 18446744073709551616)); lia. }
    lia.
Qed.
Theorem commits_once l g n raw now ac c g' now' : u64 (gc_epoch (gr_context g)) ->
  accepts_commit g raw now ac c g' -> commits_accepted g' l n -> n + 1 < 2 ^ 64 ->
  exists err, unmarshalAndProcessMessage (after g' l) raw now' = (after g' l, Err err).
Proof.
  intros U A Hn L. pose proof A as (_ & _ & E).
  pose proof (rejected_ever_after ((raw, now) :: l) g (n + 1) raw now g' None now' U E (ca_commit g raw now l n ac c g' A Hn) ltac:(lia) L) as R.
  cbn [after] in R. rewrite E in R. exact R.
Qed.
End WithCrypto.
