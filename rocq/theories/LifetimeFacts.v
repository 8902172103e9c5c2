(** Lifetimes of leaf nodes *)
From Coq Require Import Lia.
From Verif Require Export SpecIntegrity ModelFacts.

Local Open Scope Z_scope.

Lemma wrap64_small z : - 2 ^ 63 <= z < 2 ^ 63 -> wrap64 z = z.
Proof. intros H. unfold wrap64. rewrite Z.mod_small; lia. Qed.
Lemma wrap64_range z : - 2 ^ 63 <= wrap64 z < 2 ^ 63.
Proof. unfold wrap64. pose proof (Z.mod_pos_bound (z + 2 ^ 63) (2 ^ 64)). lia. Qed.
Lemma wrap64_shift z m : - 2 ^ 63 <= z + m * 2 ^ 64 < 2 ^ 63 -> wrap64 z = z + m * 2 ^ 64.
Proof.
  intros H. unfold wrap64. replace (z + 2 ^ 63) with ((z + m * 2 ^ 64 + 2 ^ 63) + (- m) * 2 ^ 64) by lia.
  rewrite Z.mod_add by lia. rewrite Z.mod_small; lia.
Qed.

Lemma wrap64_cong z : exists m, wrap64 z = z + m * 2 ^ 64.
Proof. exists (- ((z + 2 ^ 63) / 2 ^ 64)). unfold wrap64. pose proof (Z.div_mod (z + 2 ^ 63) (2 ^ 64)). lia. Qed.

Lemma unixTime_sec u : (u < 2 ^ 64)%N ->
  t_nsec (unixTime u) = 0 /\
  (Z.of_N u < 2 ^ 63 - unixToInternal -> t_sec (unixTime u) = Z.of_N u + unixToInternal) /\
  (2 ^ 63 - unixToInternal <= Z.of_N u -> - 2 ^ 63 <= t_sec (unixTime u) < unixToInternal).
Proof.
  intros Hu. unfold unixTime. cbn [t_sec t_nsec]. unfold unixToInternal.
  assert (Hz : 0 <= Z.of_N u < 2 ^ 64) by lia.
  split; [reflexivity|]. split; intros H.
  - rewrite (wrap64_small (Z.of_N u)) by lia. apply wrap64_small. lia.
  - destruct (Z_lt_ge_dec (Z.of_N u) (2 ^ 63)).
    + rewrite (wrap64_small (Z.of_N u)) by lia. rewrite (wrap64_shift _ (-1)); lia.
    + rewrite (wrap64_shift (Z.of_N u) (-1)) by lia. rewrite wrap64_small; lia.
Qed.

(** Adding a duration to a time of 1970 or later is exact or saturates at the
    end. *)
Lemma addSec_spec s d : 20000000000 <= s < 2 ^ 63 -> - 10000000000 <= d <= 10000000000 ->
  addSec s d = if s + d <? 2 ^ 63 then s + d else 2 ^ 63 - 1.
Proof.
  intros Hs Hd. unfold addSec. destruct (Z.ltb_spec (s + d) (2 ^ 63)) as [H|H].
  - rewrite wrap64_small by lia. rewrite !Z.gtb_ltb. destruct (Z.ltb_spec s (s + d)), (Z.ltb_spec 0 d); cbn; try reflexivity; lia.
  - rewrite (wrap64_shift _ (-1)) by lia. rewrite !Z.gtb_ltb. destruct (Z.ltb_spec s (s + d + -1 * 2 ^ 64)), (Z.ltb_spec 0 d); cbn; try reflexivity; lia.
Qed.

Lemma addSec_le s d : - 2 ^ 63 <= s < 100000000000 -> - 10000000000 <= d <= 10000000000 -> addSec s d <= s + Z.max 0 d + 1.
Proof.
  intros Hs Hd. unfold addSec. rewrite !Z.gtb_ltb. destruct (Z_lt_ge_dec (s + d) (- 2 ^ 63)) as [H|H].
  - rewrite (wrap64_shift _ 1) by lia. destruct (Z.ltb_spec s (s + d + 1 * 2 ^ 64)), (Z.ltb_spec 0 d); cbn [Bool.eqb]; lia.
  - rewrite wrap64_small by lia. destruct (Z.ltb_spec s (s + d)), (Z.ltb_spec 0 d); cbn [Bool.eqb]; lia.
Qed.

(** The difference of two whole numbers of seconds after 1970 *)
Lemma timeSub_spec a b : 20000000000 <= a < 2 ^ 63 -> 20000000000 <= b < 2 ^ 63 ->
  timeSub (mkTime a 0) (mkTime b 0) =
  if (- 2 ^ 63 <=? (a - b) * 1000000000) && ((a - b) * 1000000000 <? 2 ^ 63) then (a - b) * 1000000000
  else if a <? b then - 2 ^ 63 else 2 ^ 63 - 1.
Proof.
  intros Ha Hb. unfold timeSub. cbn [t_sec t_nsec]. rewrite (wrap64_small (a - b)) by lia. rewrite Z.sub_diag, Z.add_0_r.
  rewrite (wrap64_small (wrap64 _)) by apply wrap64_range.
  set (d := wrap64 ((a - b) * 1000000000)).
  assert (Hd : - 2 ^ 63 <= d < 2 ^ 63) by apply wrap64_range.
  destruct (wrap64_cong ((a - b) * 1000000000)) as (m & Hm). fold d in Hm.
  assert (Q : - 9223372036 <= Z.quot d 1000000000 <= 9223372036).
  { split.
    - assert (- 9223372036 = Z.quot (- 2 ^ 63) 1000000000) as -> by reflexivity. apply Z.quot_le_mono; lia.
    - assert (9223372036 = Z.quot (2 ^ 63) 1000000000) as -> by reflexivity. apply Z.quot_le_mono; lia. }
  pose proof (Z.quot_rem' d 1000000000) as QR.
  assert (R : -1000000000 < Z.rem d 1000000000 < 1000000000).
  { pose proof (Z.rem_bound_abs d 1000000000 ltac:(lia)). lia. }
  assert (B : timeBefore (mkTime a 0) (mkTime b 0) = (a <? b)).
  { unfold timeBefore. cbn [t_sec t_nsec]. rewrite Z.ltb_irrefl, andb_false_r, orb_false_r. reflexivity. }
  rewrite B. unfold timeEqual, timeAdd. cbn [t_sec t_nsec]. rewrite Z.add_0_l.
  set (q := Z.quot d 1000000000) in *. set (r := Z.rem d 1000000000) in *.
  destruct ((- 2 ^ 63 <=? (a - b) * 1000000000) && ((a - b) * 1000000000 <? 2 ^ 63)) eqn:E.
  - apply andb_true_iff in E. destruct E as [E1 E2]. apply Z.leb_le in E1. apply Z.ltb_lt in E2.
    assert (D : d = (a - b) * 1000000000) by (apply wrap64_small; lia).
    assert (Hr : r = 0) by lia. assert (Hq : q = a - b) by lia. rewrite Hr. cbn [Z.geb Z.ltb Z.compare t_sec t_nsec].
    rewrite addSec_spec by lia. destruct (Z.ltb_spec (b + q) (2 ^ 63)); [|lia].
    replace (b + q) with a by lia. rewrite !Z.eqb_refl. cbn [andb]. exact D.
  - destruct (r >=? 1000000000) eqn:E1; [rewrite Z.geb_leb in E1; apply Z.leb_le in E1; lia|].
    assert (F : forall s n, (s = b + q \/ s = b + q - 1 \/ (s = 2 ^ 63 - 1 /\ 2 ^ 63 <= b + q)) -> (s =? a) && (n =? 0) = false).
    { intros s n Hs. apply andb_false_iff. left. apply Z.eqb_neq. intros ->.
      apply andb_false_iff in E. rewrite Z.leb_gt, Z.ltb_ge in E. lia. }
    destruct (r <? 0) eqn:E2; cbn [t_sec t_nsec].
    + rewrite F; [reflexivity|]. rewrite addSec_spec by lia. destruct (Z.ltb_spec (b + (q - 1)) (2 ^ 63)); lia.
    + rewrite F; [reflexivity|]. rewrite addSec_spec by lia. destruct (Z.ltb_spec (b + q) (2 ^ 63)); lia.
Qed.

Lemma timeSub_far a b : - 2 ^ 63 <= b < 100000000000 -> a - b > ninetyDays + 1 ->
  maxLeafNodeLifetime < timeSub (mkTime a 0) (mkTime b 0).
Proof.
  intros Hb Ha. unfold ninetyDays in Ha. unfold timeSub. cbn [t_sec t_nsec].
  assert (B : timeBefore (mkTime a 0) (mkTime b 0) = false).
  { unfold timeBefore. cbn [t_sec t_nsec]. apply orb_false_iff. split; [apply Z.ltb_ge; lia|]. rewrite Z.ltb_irrefl. apply andb_false_r. }
  rewrite B. set (dd := wrap64 _). assert (Hd : - 2 ^ 63 <= dd < 2 ^ 63) by apply wrap64_range. clearbody dd.
  unfold timeEqual, timeAdd. cbn [t_sec t_nsec]. rewrite Z.add_0_l.
  destruct (Z_lt_ge_dec maxLeafNodeLifetime dd) as [L|L]; unfold maxLeafNodeLifetime in *.
  - match goal with |- context [if ?c then dd else _] => destruct c end; lia.
  - assert (Q : - 9223372036 <= Z.quot dd 1000000000 <= 7776000).
    { split.
      - assert (- 9223372036 = Z.quot (- 2 ^ 63) 1000000000) as -> by reflexivity. apply Z.quot_le_mono; lia.
      - assert (7776000 = Z.quot (3 * 30 * 24 * 3600 * 1000000000) 1000000000) as -> by reflexivity. apply Z.quot_le_mono; lia. }
    pose proof (Z.rem_bound_abs dd 1000000000 ltac:(lia)) as R. revert R Q.
    generalize (Z.rem dd 1000000000) as r. generalize (Z.quot dd 1000000000) as q. intros q r R Q.
    destruct (r >=? 1000000000) eqn:E1; [rewrite Z.geb_leb in E1; apply Z.leb_le in E1; lia|].
    destruct (r <? 0); cbn [t_sec t_nsec].
    + pose proof (addSec_le b (q - 1) Hb ltac:(lia)). rewrite (proj2 (Z.eqb_neq (addSec b (q - 1)) a)) by lia. cbn [andb]. lia.
    + pose proof (addSec_le b q Hb ltac:(lia)). rewrite (proj2 (Z.eqb_neq (addSec b q) a)) by lia. cbn [andb]. lia.
Qed.

Lemma timeBefore_nanos a b : 0 <= t_nsec a < 1000000000 -> 0 <= t_nsec b < 1000000000 ->
  timeBefore a b = true <-> nanos a < nanos b.
Proof.
  intros Ha Hb. unfold timeBefore, nanos. rewrite orb_true_iff, andb_true_iff, !Z.ltb_lt, Z.eqb_eq. lia.
Qed.

Lemma gotime_eta t : t = mkTime (t_sec t) (t_nsec t).
Proof. now destruct t. Qed.

Theorem lifetimeVerify_spec lt now : (lt_notBefore lt < 2 ^ 64)%N -> (lt_notAfter lt < 2 ^ 64)%N -> later_than_1970 now ->
  lifetimeVerify lt now = true <-> current lt now /\ ends_in_time lt.
Proof.
  intros Hb Ha [[Hs Hn] Hl]. unfold lifetimeVerify, current, ends_in_time.
  set (nb := lt_notBefore lt) in *. set (na := lt_notAfter lt) in *.
  destruct (unixTime_sec nb Hb) as (Bn & B1 & B2). destruct (unixTime_sec na Ha) as (An & A1 & A2).
  unfold timeAfter.
  assert (NB : nanos now < (2 ^ 63 - unixToInternal) * 1000000000) by (unfold nanos; lia).
  rewrite !Z.gtb_ltb.
  destruct (Z_lt_ge_dec (Z.of_N na) (2 ^ 63 - unixToInternal)) as [La|La].
  2:{ split; [|intros [_ H]; lia]. destruct ((_ <=? 0) || _); [discriminate|]. intros H. apply andb_true_iff in H. destruct H as [_ H].
      apply timeBefore_nanos in H; [|lia|lia]. specialize (A2 ltac:(lia)). unfold nanos in *. unfold ninetyDays in *. lia. }
  specialize (A1 La).
  destruct (Z_lt_ge_dec (Z.of_N nb) (2 ^ 63 - unixToInternal)) as [Lb|Lb].
  - specialize (B1 Lb). unfold unixToInternal in *.
    rewrite (gotime_eta (unixTime na)), (gotime_eta (unixTime nb)), An, Bn, A1, B1. rewrite timeSub_spec by lia.
    assert (G1 : timeBefore (mkTime (Z.of_N nb + 62135596800) 0) now = true <-> Z.of_N nb * 1000000000 < nanos now).
    { rewrite timeBefore_nanos by (cbn [t_nsec]; lia). unfold nanos. cbn [t_sec t_nsec]. unfold unixToInternal. lia. }
    assert (G2 : timeBefore now (mkTime (Z.of_N na + 62135596800) 0) = true <-> nanos now < Z.of_N na * 1000000000).
    { rewrite timeBefore_nanos by (cbn [t_nsec]; lia). unfold nanos. cbn [t_sec t_nsec]. unfold unixToInternal. lia. }
    replace (Z.of_N na + 62135596800 - (Z.of_N nb + 62135596800)) with (Z.of_N na - Z.of_N nb) by lia.
    unfold ninetyDays, maxLeafNodeLifetime in *.
    match goal with |- context [(?x <=? 0)] => set (D := x) end.
    assert (HD : (D <=? 0) || (3 * 30 * 24 * 3600 * 1000000000 <? D) = false <-> 0 < Z.of_N na - Z.of_N nb <= 90 * 24 * 3600).
    { rewrite orb_false_iff, Z.leb_gt, Z.ltb_ge. subst D.
      destruct (Z.leb_spec (- 2 ^ 63) ((Z.of_N na - Z.of_N nb) * 1000000000)), (Z.ltb_spec ((Z.of_N na - Z.of_N nb) * 1000000000) (2 ^ 63)),
        (Z.ltb_spec (Z.of_N na + 62135596800) (Z.of_N nb + 62135596800)); cbn [andb]; lia. }
    destruct ((D <=? 0) || _) eqn:ED.
    + split; [discriminate|]. intros [[H1 H2] _]. exfalso. enough (true = false) by discriminate. apply HD. lia.
    + rewrite andb_true_iff, G1, G2. pose proof (proj1 HD eq_refl). lia.
  - specialize (B2 ltac:(lia)). split; [|intros [[H _] _]; lia].
    destruct ((_ <=? 0) || _) eqn:ED; [discriminate|]. apply orb_false_iff in ED. destruct ED as [_ ED]. apply Z.ltb_ge in ED.
    intros H. apply andb_true_iff in H. destruct H as [_ H]. apply timeBefore_nanos in H; [|lia|lia].
    exfalso. assert (HS : t_sec (unixTime na) - t_sec (unixTime nb) > ninetyDays + 1) by (unfold nanos in *; unfold ninetyDays in *; lia).
    rewrite (gotime_eta (unixTime na)), (gotime_eta (unixTime nb)), An, Bn in ED. unfold unixToInternal in *.
    pose proof (timeSub_far (t_sec (unixTime na)) (t_sec (unixTime nb)) ltac:(lia) HS). lia.
Qed.

(** The other way fails at the end of time. *)
Lemma lifetime_end_of_time : exists lt now, (lt_notBefore lt < 2 ^ 64)%N /\ (lt_notAfter lt < 2 ^ 64)%N /\ later_than_1970 now /\ current lt now /\ lifetimeVerify lt now = false.
Proof.
  exists (mkLifetime (2 ^ 63 - 62135596800 - 10) (2 ^ 63 - 62135596800)), (mkTime (2 ^ 63 - 5) 0).
  split; [reflexivity|]. split; [reflexivity|]. split; [|split; [|reflexivity]].
  - split; [|reflexivity]. split; split; cbn; lia.
  - split; [split; reflexivity|]. vm_compute. discriminate.
Qed.
