(** Facts about the wire primitives: round trip, canonicity, safety. *)
From Verif Require Export BaseFacts Wire.

(** ** Predicates on a (decoder, encoder) pair *)

(** Decoding an encoding, with any continuation, gives the value back. *)
Definition RT {A} (r : reader A) (w : A -> W) (wf : A -> Prop) : Prop :=
  forall x e rest, wf x -> w x = Ok e -> r (e ++ rest) = (Ok x, rest).

(** What is decoded is well-formed and, if [good], the input was its encoding. *)
Definition CAN {A} (r : reader A) (w : A -> W) (wf good : A -> Prop) : Prop :=
  forall s x rest, r s = (Ok x, rest) ->
    wf x /\ (good x -> exists e, w x = Ok e /\ s = e ++ rest).

(** No panic, no endless loop, no reading backwards; success consumes input. *)
Definition SAFE {A} (r : reader A) : Prop :=
  forall s, match r s with
            | (Ok _, rest) => (length rest < length s)%nat
            | (Err _, rest) => (length rest <= length s)%nat
            | (Panic _, _) | (Hang, _) => False
            end.

(** The encoder of a well-formed value does not panic. *)
Definition WSAFE {A} (w : A -> W) (wf : A -> Prop) : Prop :=
  forall x, wf x -> no_crash (w x).

(** ** be / unbe *)
Lemma unbe_app_acc bs acc :
  fold_left (fun a b => a * 256 + b2n b) bs acc = acc * 2 ^ (8 * lenN bs) + unbe bs.
Proof.
  unfold unbe. revert acc. induction bs as [|b bs IH]; intros acc; cbn [fold_left].
  - unfold lenN; cbn [length]. change (8 * N.of_nat 0) with 0. rewrite N.pow_0_r. lia.
  - rewrite IH. rewrite (IH (0 * 256 + b2n b)).
    replace (lenN (b :: bs)) with (1 + lenN bs) by (unfold lenN; cbn [length]; lia).
    replace (8 * (1 + lenN bs)) with (8 + 8 * lenN bs) by lia.
    rewrite N.pow_add_r. change (2 ^ 8) with 256. lia.
Qed.

Lemma unbe_cons b bs : unbe (b :: bs) = b2n b * 2 ^ (8 * lenN bs) + unbe bs.
Proof.
  unfold unbe at 1. cbn [fold_left]. rewrite unbe_app_acc. lia.
Qed.

Lemma be_length k n : length (be k n) = k.
Proof. induction k; cbn; auto. Qed.

Lemma lenN_be k n : lenN (be k n) = N.of_nat k.
Proof. unfold lenN. now rewrite be_length. Qed.

Lemma unbe_be k n : unbe (be k n) = n mod 2 ^ (8 * N.of_nat k).
Proof.
  induction k as [|k IH]; cbn [be].
  - change (8 * N.of_nat 0) with 0. rewrite N.pow_0_r, N.mod_1_r. reflexivity.
  - rewrite unbe_cons, lenN_be, IH, b2n_n2b, N.shiftr_div_pow2.
    set (p := 2 ^ (8 * N.of_nat k)).
    assert (Hp : p <> 0) by (apply N.pow_nonzero; lia).
    replace (8 * N.of_nat (S k)) with (8 * N.of_nat k + 8) by lia.
    rewrite N.pow_add_r. change (2 ^ 8) with 256. fold p.
    rewrite (N.mod_mul_r n p 256) by lia. lia.
Qed.

Lemma unbe_lt bs : unbe bs < 2 ^ (8 * lenN bs).
Proof.
  induction bs as [|b bs IH].
  - vm_compute. reflexivity.
  - rewrite unbe_cons.
    replace (lenN (b :: bs)) with (1 + lenN bs) by (unfold lenN; cbn [length]; lia).
    replace (8 * (1 + lenN bs)) with (8 + 8 * lenN bs) by lia.
    rewrite N.pow_add_r. change (2 ^ 8) with 256.
    pose proof (b2n_lt b). nia.
Qed.

Lemma be_unbe bs : be (length bs) (unbe bs) = bs.
Proof.
  assert (Hgen : forall bs' m, be (length bs') (m * 2 ^ (8 * lenN bs') + unbe bs') = bs').
  { clear bs. induction bs' as [|b bs IH]; intros m; cbn [length be]; auto.
    fold (lenN bs).
    replace (8 * lenN (b :: bs)) with (8 * lenN bs + 8) by (unfold lenN; cbn [length]; lia).
    rewrite N.pow_add_r. change (2 ^ 8) with 256.
    rewrite unbe_cons. set (p := 2 ^ (8 * lenN bs)).
    assert (Hp : p <> 0) by (apply N.pow_nonzero; lia).
    assert (Hu : unbe bs < p) by apply unbe_lt.
    f_equal.
    - rewrite N.shiftr_div_pow2. fold p.
      replace (m * (p * 256) + (b2n b * p + unbe bs)) with ((m * 256 + b2n b) * p + unbe bs) by lia.
      rewrite N.div_add_l, (N.div_small (unbe bs)) by auto.
      rewrite <- (n2b_b2n b) at 2. apply b2n_inj. rewrite !b2n_n2b.
      rewrite N.add_0_r, N.add_comm, N.mod_add by lia. reflexivity.
    - transitivity (be (length bs) ((m * 256 + b2n b) * p + unbe bs)); [f_equal; lia|apply IH]. }
  specialize (Hgen bs 0). now rewrite N.mul_0_l, N.add_0_l in Hgen.
Qed.

Lemma be_inj k a b : a < 2 ^ (8 * N.of_nat k) -> b < 2 ^ (8 * N.of_nat k) -> be k a = be k b -> a = b.
Proof.
  intros Ha Hb H. apply (f_equal unbe) in H. rewrite !unbe_be in H.
  rewrite !N.mod_small in H; auto.
Qed.

(** ** wapp *)
Lemma wapp_ok a b e : a +++ b = Ok e -> exists x y, a = Ok x /\ b = Ok y /\ e = x ++ y.
Proof. destruct a, b; cbn; intros H; inversion H; eauto. Qed.

Lemma wapp_no_crash a b : no_crash a -> no_crash b -> no_crash (a +++ b).
Proof. destruct a, b; cbn; auto. Qed.

(** ** readN *)
Lemma readN_app x rest : readN (lenN x) (x ++ rest) = (Ok x, rest).
Proof.
  unfold readN. rewrite lenN_app.
  destruct (N.ltb_spec (lenN x + lenN rest) (lenN x)); [lia|].
  unfold lenN. rewrite Nat2N.id.
  rewrite firstn_app, firstn_all, Nat.sub_diag, firstn_O, app_nil_r.
  rewrite skipn_app, skipn_all, Nat.sub_diag. reflexivity.
Qed.

Lemma readN_inv n s x rest : readN n s = (Ok x, rest) -> s = x ++ rest /\ lenN x = n.
Proof.
  unfold readN. destruct (N.ltb_spec (lenN s) n) as [Hlt|Hge]; intros Heq; inversion Heq; subst.
  split.
  - symmetry. apply firstn_skipn.
  - unfold lenN in *. rewrite firstn_length. lia.
Qed.

Lemma readN_cases n s :
  match readN n s with
  | (Ok x, rest) => s = x ++ rest /\ lenN x = n
  | (Err _, rest) => rest = s /\ lenN s < n
  | _ => False
  end.
Proof.
  destruct (readN n s) as [[x|e|p|] rest] eqn:E.
  - now apply readN_inv.
  - unfold readN in E. destruct (N.ltb_spec (lenN s) n); inversion E; subst; auto.
  - unfold readN in E. destruct (lenN s <? n); inversion E.
  - unfold readN in E. destruct (lenN s <? n); inversion E.
Qed.

(** ** unsigned integers *)
Lemma readUint_RT k : RT (readUint k) (fun n => Ok (be k n)) (fun n => n < 2 ^ (8 * N.of_nat k)).
Proof.
  intros n e rest Hn He. inversion He; subst e. unfold readUint, rd_bind.
  rewrite <- (lenN_be k n), readN_app. cbn. rewrite unbe_be, N.mod_small; auto.
Qed.

Lemma readUint_CAN k : CAN (readUint k) (fun n => Ok (be k n)) (fun n => n < 2 ^ (8 * N.of_nat k)) (fun _ => True).
Proof.
  intros s n rest H. unfold readUint, rd_bind in H.
  destruct (readN (N.of_nat k) s) as [[x|e|p|] s'] eqn:E; inversion H; subst.
  apply readN_inv in E. destruct E as [-> Hl].
  assert (Hk : k = length x) by (unfold lenN in Hl; lia).
  split.
  - rewrite <- Hl. apply unbe_lt.
  - intros _. exists (be k (unbe x)). split; auto. rewrite Hk, be_unbe. reflexivity.
Qed.

Lemma readUint_SAFE k : (0 < k)%nat -> SAFE (readUint k).
Proof.
  intros Hk s. unfold readUint, rd_bind.
  pose proof (readN_cases (N.of_nat k) s) as H.
  destruct (readN (N.of_nat k) s) as [[x|e|p|] s']; cbn.
  - destruct H as [-> Hl]. unfold lenN in Hl. rewrite app_length. lia.
  - destruct H as [-> _]. lia.
  - exact H.
  - exact H.
Qed.

(** ** bit tricks of the varint *)
Lemma shiftr6 b : N.shiftr b 6 = b / 64.
Proof. now rewrite N.shiftr_div_pow2. Qed.

Lemma land63 b : N.land b 0x3F = b mod 64.
Proof. change 0x3F with (N.ones 6). now rewrite N.land_ones. Qed.

Lemma lor_add a n k : n < 2 ^ k -> N.lor (N.shiftl a k) n = a * 2 ^ k + n.
Proof.
  intros Hn. rewrite N.shiftl_mul_pow2.
  rewrite <- N.lxor_lor, <- N.add_nocarry_lxor; auto.
  all: apply N.bits_inj; intros i; rewrite N.land_spec, N.bits_0;
    destruct (N.lt_ge_cases i k) as [Hi|Hi];
    [ rewrite N.mul_pow2_bits_low by lia; reflexivity
    | rewrite andb_false_intro2; auto;
      destruct (N.eq_dec n 0) as [->|Hn0]; [apply N.bits_0|];
      apply N.bits_above_log2; apply N.log2_lt_pow2 in Hn; lia ].
Qed.

(** The bytes a varint encodes to, arithmetically. *)
Lemma writeVarint_spec n :
  writeVarint n =
    if n <? 64 then Ok (be 1 n)
    else if n <? 16384 then Ok (be 2 (16384 + n))
    else if n <? 2^30 then Ok (be 4 (2 * 2^30 + n))
    else Err "mls: varint exceeds 30 bits".
Proof.
  unfold writeVarint.
  change (N.shiftl 1 6) with 64. change (N.shiftl 1 14) with 16384.
  change (N.shiftl 1 30) with (2^30).
  destruct (N.ltb_spec n 64); auto.
  destruct (N.ltb_spec n 16384).
  - unfold addUint16.
    rewrite N.mod_small by (change (2^16) with 65536; lia).
    pose proof (lor_add 1 n 14) as Hl. change (N.shiftl 1 14) with 16384 in Hl.
    rewrite Hl by (change (2^14) with 16384; lia). reflexivity.
  - destruct (N.ltb_spec n (2^30)); auto.
    unfold addUint32. rewrite lor_add by lia. reflexivity.
Qed.

Lemma readUint8_cons b s : readUint8 (b :: s) = (Ok (b2n b), s).
Proof.
  unfold readUint8, readUint, rd_bind, readN.
  destruct (N.ltb_spec (lenN (b :: s)) (N.of_nat 1)) as [H|H].
  { unfold lenN in H; cbn [length] in H; lia. }
  change (N.to_nat (N.of_nat 1)) with 1%nat. cbn [firstn skipn].
  unfold rd_ret. rewrite unbe_cons. change (lenN []) with 0. rewrite N.mul_0_r, N.pow_0_r.
  change (unbe []) with 0. do 2 f_equal. lia.
Qed.

Lemma readUint8_nil : readUint8 [] = (Err "unexpected EOF", []).
Proof. reflexivity. Qed.

Lemma div_small_bounds (b q m : N) : 0 < m -> b / m = q -> q * m <= b < (q + 1) * m.
Proof.
  intros Hm H. pose proof (N.div_mod b m). pose proof (N.mod_lt b m). nia.
Qed.

(** Complete case analysis of [readVarint]. *)
Lemma readVarintLoop_1 v s :
  readVarintLoop 1 v s =
  match s with
  | b1 :: r => (Ok ((v * 256 + b2n b1) mod 2^32), r)
  | [] => (Err "unexpected EOF", [])
  end.
Proof.
  destruct s as [|b1 r]; cbn [readVarintLoop]; unfold rd_bind.
  - reflexivity.
  - rewrite readUint8_cons. unfold rd_ret. now rewrite N.shiftl_mul_pow2.
Qed.

Lemma readVarint_inv s n rest :
  readVarint s = (Ok n, rest) -> n < 2^30 /\ exists e, writeVarint n = Ok e /\ s = e ++ rest.
Proof.
  unfold readVarint. destruct s as [|b s].
  { cbn. discriminate. }
  unfold rd_bind at 1. rewrite readUint8_cons. rewrite shiftr6, land63.
  pose proof (b2n_lt b) as Hb.
  assert (Hq : b2n b / 64 < 4) by (apply N.div_lt_upper_bound; lia).
  destruct (N.eqb_spec (b2n b / 64) 3) as [H3|H3]; [discriminate|].
  assert (Hcases : b2n b / 64 = 0 \/ b2n b / 64 = 1 \/ b2n b / 64 = 2) by lia.
  pose proof (N.div_mod (b2n b) 64) as Hdm.
  pose proof (N.mod_lt (b2n b) 64) as Hml.
  rewrite writeVarint_spec.
  destruct Hcases as [Hp|[Hp|Hp]]; rewrite Hp in *; clear H3.
  - change (N.to_nat (N.shiftl 1 0 - 1)) with 0%nat. unfold rd_bind; cbn [readVarintLoop rd_ret].
    unfold rd_ret. change (1 <=? 0) with false. cbn [andb].
    intros Heq; inversion Heq; subst. split; [change (2^30) with 1073741824; lia|].
    destruct (N.ltb_spec (b2n b mod 64) 64); [|lia].
    eexists; split; [reflexivity|].
    rewrite N.mod_small by lia.
    cbn [be app]. rewrite N.shiftr_0_r, n2b_b2n. reflexivity.
  - change (N.to_nat (N.shiftl 1 1 - 1)) with 1%nat. unfold rd_bind.
    rewrite readVarintLoop_1. destruct s as [|b1 r]; [discriminate|].
    pose proof (b2n_lt b1) as Hb1.
    rewrite N.mod_small by (change (2^32) with 4294967296; lia).
    change (1 <=? 1) with true. cbn [andb].
    change (N.shiftl 1 (8 * (N.shiftl 1 1 / 2) - 2)) with 64.
    destruct (N.ltb_spec (b2n b mod 64 * 256 + b2n b1) 64); [discriminate|].
    unfold rd_ret. intros Heq; inversion Heq; subst. set (n := b2n b mod 64 * 256 + b2n b1) in *.
    split; [change (2^30) with 1073741824; lia|].
    destruct (N.ltb_spec n 64); [lia|]. destruct (N.ltb_spec n 16384); [|lia].
    eexists; split; [reflexivity|].
    replace (16384 + n) with (unbe [b; b1]).
    2:{ rewrite !unbe_cons. change (lenN [b1]) with 1. change (lenN []) with 0. change (unbe []) with 0.
        change (2 ^ (8*1)) with 256. change (2 ^ (8 * 0)) with 1. lia. }
    change 2%nat with (length [b; b1]). rewrite be_unbe. reflexivity.
  - change (N.to_nat (N.shiftl 1 2 - 1)) with 3%nat.
    unfold rd_bind at 1. cbn [readVarintLoop]. unfold rd_bind at 1.
    destruct s as [|b1 s]; [rewrite readUint8_nil; discriminate|]. rewrite readUint8_cons.
    unfold rd_bind at 1.
    destruct s as [|b2 s]; [rewrite readUint8_nil; discriminate|]. rewrite readUint8_cons.
    unfold rd_bind at 1.
    destruct s as [|b3 s]; [rewrite readUint8_nil; discriminate|]. rewrite readUint8_cons.
    unfold rd_ret at 1.
    pose proof (b2n_lt b1). pose proof (b2n_lt b2). pose proof (b2n_lt b3).
    rewrite !N.shiftl_mul_pow2. change (2^8) with 256.
    rewrite (N.mod_small (b2n b mod 64 * 256 + b2n b1)) by (change (2^32) with 4294967296; lia).
    rewrite (N.mod_small (_ * 256 + b2n b2)) by (change (2^32) with 4294967296; lia).
    rewrite (N.mod_small (_ * 256 + b2n b3)) by (change (2^32) with 4294967296; lia).
    change (1 <=? 2) with true. cbn [andb].
    change (1 * 2 ^ (8 * (1 * 2 ^ 2 / 2) - 2)) with 16384.
    set (n' := ((b2n b mod 64 * 256 + b2n b1) * 256 + b2n b2) * 256 + b2n b3) in *.
    destruct (N.ltb_spec n' 16384); [discriminate|].
    unfold rd_ret. intros Heq; inversion Heq; subst n'. subst.
    set (n := ((b2n b mod 64 * 256 + b2n b1) * 256 + b2n b2) * 256 + b2n b3) in *.
    assert (n < 2^30) by (change (2^30) with 1073741824; lia).
    split; [assumption|].
    destruct (N.ltb_spec n 64); [lia|]. destruct (N.ltb_spec n 16384); [lia|].
    destruct (N.ltb_spec n (2^30)); [|lia].
    eexists; split; [reflexivity|].
    replace (2 * 2^30 + n) with (unbe [b; b1; b2; b3]).
    2:{ rewrite !unbe_cons. change (lenN [b1;b2;b3]) with 3. change (lenN [b2; b3]) with 2.
        change (lenN [b3]) with 1. change (lenN []) with 0. change (unbe []) with 0.
        change (2 ^ (8*1)) with 256. change (2 ^ (8 * 0)) with 1.
        change (2 ^ (8*2)) with 65536. change (2 ^ (8*3)) with 16777216. change (2^30) with 1073741824. lia. }
    change 4%nat with (length [b; b1; b2; b3]). rewrite be_unbe. reflexivity.
Qed.

Lemma be1 n : be 1 n = [n2b n].
Proof. cbn [be]. rewrite N.shiftr_0_r. reflexivity. Qed.
Lemma be2 n : be 2 n = [n2b (n / 256); n2b n].
Proof. cbn [be]. rewrite N.shiftr_0_r, N.shiftr_div_pow2. reflexivity. Qed.
Lemma be4 n : be 4 n = [n2b (n / 16777216); n2b (n / 65536); n2b (n / 256); n2b n].
Proof. cbn [be]. rewrite N.shiftr_0_r, !N.shiftr_div_pow2. reflexivity. Qed.

Lemma readVarint_RT : RT readVarint writeVarint (fun _ => True).
Proof.
  intros n e rest _ He. rewrite writeVarint_spec in He.
  assert (Hgo : n < 2^30).
  { destruct (N.ltb_spec n 64); [change (2^30) with 1073741824; lia|].
    destruct (N.ltb_spec n 16384); [change (2^30) with 1073741824; lia|].
    destruct (N.ltb_spec n (2^30)); [assumption|discriminate]. }
  change (2^30) with 1073741824 in *.
  unfold readVarint.
  destruct (N.ltb_spec n 64) as [H0|H0].
  - assert (e = be 1 n) by congruence; subst e; clear He. rewrite be1. cbn [app].
    unfold rd_bind at 1. rewrite readUint8_cons, b2n_n2b.
    rewrite (N.mod_small n 256) by lia. rewrite shiftr6, land63.
    rewrite (N.div_small n 64), (N.mod_small n 64) by lia.
    change (N.to_nat (N.shiftl 1 0 - 1)) with 0%nat. unfold rd_bind; cbn [readVarintLoop].
    reflexivity.
  - destruct (N.ltb_spec n 16384) as [H1|H1].
    + assert (e = be 2 (16384 + n)) by congruence; subst e; clear He. rewrite be2. cbn [app].
      unfold rd_bind at 1. rewrite readUint8_cons, b2n_n2b.
      pose proof (N.div_mod n 256). pose proof (N.mod_lt n 256).
      replace ((16384 + n) / 256) with (64 + n / 256)
        by (apply (N.div_unique _ _ _ (n mod 256)); lia).
      assert (n / 256 < 64) by (apply N.div_lt_upper_bound; lia).
      rewrite (N.mod_small (64 + n / 256) 256) by lia. rewrite shiftr6, land63.
      replace ((64 + n / 256) / 64) with 1 by (apply (N.div_unique _ _ _ (n / 256)); lia).
      replace ((64 + n / 256) mod 64) with (n / 256) by (apply (N.mod_unique _ _ 1); lia).
      change (1 =? 3) with false. cbv iota.
      change (N.to_nat (N.shiftl 1 1 - 1)) with 1%nat. unfold rd_bind.
      rewrite readVarintLoop_1, b2n_n2b.
      replace ((16384 + n) mod 256) with (n mod 256)
        by (rewrite <- (N.mod_add n 64 256) by lia; f_equal; lia).
      replace (n / 256 * 256 + n mod 256) with n by lia.
      rewrite N.mod_small by (change (2^32) with 4294967296; lia).
      change (1 <=? 1) with true. cbn [andb].
      change (N.shiftl 1 (8 * (N.shiftl 1 1 / 2) - 2)) with 64.
      destruct (N.ltb_spec n 64); [lia|]. reflexivity.
    + destruct (N.ltb_spec n 1073741824); [|lia].
      assert (e = be 4 (2 * 1073741824 + n)) by congruence; subst e; clear He. rewrite be4. cbn [app].
      set (m := 2 * 1073741824 + n).
      unfold rd_bind at 1. rewrite readUint8_cons, b2n_n2b.
      pose proof (N.div_mod n 16777216). pose proof (N.mod_lt n 16777216).
      assert (Hd : n / 16777216 < 64) by (apply N.div_lt_upper_bound; lia).
      replace (m / 16777216) with (128 + n / 16777216)
        by (apply (N.div_unique _ _ _ (n mod 16777216)); lia).
      rewrite (N.mod_small (128 + n / 16777216) 256) by lia. rewrite shiftr6, land63.
      replace ((128 + n / 16777216) / 64) with 2 by (apply (N.div_unique _ _ _ (n / 16777216)); lia).
      replace ((128 + n / 16777216) mod 64) with (n / 16777216) by (apply (N.mod_unique _ _ 2); lia).
      change (2 =? 3) with false. cbv iota.
      change (N.to_nat (N.shiftl 1 2 - 1)) with 3%nat.
      unfold rd_bind at 1. cbn [readVarintLoop]. unfold rd_bind at 1. rewrite readUint8_cons.
      unfold rd_bind at 1. rewrite readUint8_cons. unfold rd_bind at 1. rewrite readUint8_cons.
      unfold rd_ret at 1. rewrite !b2n_n2b, !N.shiftl_mul_pow2. change (2^8) with 256.
      assert (Hx : n / 16777216 * 256 + (m / 65536) mod 256 = n / 65536).
      { replace (m / 65536) with (32768 + n / 65536)
          by (apply (N.div_unique _ _ _ (n mod 65536)); pose proof (N.div_mod n 65536); pose proof (N.mod_lt n 65536); lia).
        replace ((32768 + n / 65536) mod 256) with ((n / 65536) mod 256)
          by (rewrite <- (N.mod_add (n / 65536) 128 256) by lia; f_equal; lia).
        replace (n / 16777216) with (n / 65536 / 256) by (rewrite N.div_div by lia; reflexivity).
        pose proof (N.div_mod (n / 65536) 256). lia. }
      rewrite Hx.
      assert (Hn1 : n / 65536 < 16384) by (apply N.div_lt_upper_bound; lia).
      rewrite (N.mod_small (n / 65536)) by (change (2^32) with 4294967296; lia).
      assert (Hy : n / 65536 * 256 + (m / 256) mod 256 = n / 256).
      { replace (m / 256) with (8388608 + n / 256)
          by (apply (N.div_unique _ _ _ (n mod 256)); pose proof (N.div_mod n 256); pose proof (N.mod_lt n 256); lia).
        replace ((8388608 + n / 256) mod 256) with ((n / 256) mod 256)
          by (rewrite <- (N.mod_add (n / 256) 32768 256) by lia; f_equal; lia).
        replace (n / 65536) with (n / 256 / 256) by (rewrite N.div_div by lia; reflexivity).
        pose proof (N.div_mod (n / 256) 256). lia. }
      rewrite Hy.
      assert (Hn2 : n / 256 < 4194304) by (apply N.div_lt_upper_bound; lia).
      rewrite (N.mod_small (n / 256)) by (change (2^32) with 4294967296; lia).
      assert (Hz : n / 256 * 256 + m mod 256 = n).
      { replace (m mod 256) with (n mod 256)
          by (rewrite <- (N.mod_add n 8388608 256) by lia; f_equal; lia).
        pose proof (N.div_mod n 256). lia. }
      rewrite Hz, N.mod_small by (change (2^32) with 4294967296; lia).
      change (1 <=? 2) with true. cbn [andb].
      change (1 * 2 ^ (8 * (1 * 2 ^ 2 / 2) - 2)) with 16384.
      destruct (N.ltb_spec n 16384); [lia|]. reflexivity.
Qed.

Lemma readVarintLoop_SAFE k : forall v s,
  match readVarintLoop k v s with
  | (Ok _, rest) | (Err _, rest) => (length rest <= length s)%nat
  | (Panic _, _) | (Hang, _) => False
  end.
Proof.
  induction k as [|k IH]; intros v s; cbn [readVarintLoop].
  - cbn. lia.
  - unfold rd_bind. destruct s as [|b s].
    + rewrite readUint8_nil. cbn. lia.
    + rewrite readUint8_cons. cbn [length].
      specialize (IH ((N.shiftl v 8 + b2n b) mod 2^32) s).
      destruct (readVarintLoop k _ s) as [[]]; cbn in *; auto; lia.
Qed.

Lemma readVarint_SAFE : SAFE readVarint.
Proof.
  intros s. unfold readVarint, rd_bind. destruct s as [|b s].
  { rewrite readUint8_nil. cbn. lia. }
  rewrite readUint8_cons. destruct (N.shiftr (b2n b) 6 =? 3); [cbn; lia|].
  pose proof (readVarintLoop_SAFE (N.to_nat (N.shiftl 1 (N.shiftr (b2n b) 6) - 1)) (N.land (b2n b) 63) s) as H.
  destruct (readVarintLoop _ _ s) as [[v|e|p|] r]; cbn in *; auto; try lia.
  destruct ((1 <=? N.shiftr (b2n b) 6) && (v <? _)); cbn; lia.
Qed.

(** ** opaque vectors *)
Lemma writeVarint_ok_bound n e : writeVarint n = Ok e -> n < 2^30.
Proof.
  rewrite writeVarint_spec.
  destruct (N.ltb_spec n 64); [intros _; change (2^30) with 1073741824; lia|].
  destruct (N.ltb_spec n 16384); [intros _; change (2^30) with 1073741824; lia|].
  destruct (N.ltb_spec n (2^30)); [auto|discriminate].
Qed.

Lemma writeVarint_bound_ok n : n < 2^30 -> exists e, writeVarint n = Ok e.
Proof.
  rewrite writeVarint_spec. intros H.
  destruct (N.ltb_spec n 64); [eauto|].
  destruct (N.ltb_spec n 16384); [eauto|].
  destruct (N.ltb_spec n (2^30)); [eauto|lia].
Qed.

Lemma writeVarint_no_crash n : no_crash (writeVarint n).
Proof.
  rewrite writeVarint_spec.
  destruct (n <? 64), (n <? 16384), (n <? 2^30); cbn; auto.
Qed.

Lemma writeOpaqueVec_no_crash v : no_crash (writeOpaqueVec v).
Proof.
  unfold writeOpaqueVec. destruct (2^32 <=? lenN v); cbn [no_crash]; auto.
  apply wapp_no_crash; [apply writeVarint_no_crash|exact I].
Qed.

Lemma writeOpaqueVec_ok v e :
  writeOpaqueVec v = Ok e -> lenN v < 2^30 /\ exists p, writeVarint (lenN v) = Ok p /\ e = p ++ v.
Proof.
  unfold writeOpaqueVec. destruct (N.leb_spec (2^32) (lenN v)); [discriminate|].
  intros H1. apply wapp_ok in H1. destruct H1 as (x & y & Hx & Hy & ->).
  inversion Hy; subst. split; [eapply writeVarint_ok_bound; eauto|eauto].
Qed.

Lemma writeOpaqueVec_bound v : lenN v < 2^30 -> exists p, writeVarint (lenN v) = Ok p /\ writeOpaqueVec v = Ok (p ++ v).
Proof.
  intros H. destruct (writeVarint_bound_ok _ H) as [p Hp]. exists p. split; auto.
  unfold writeOpaqueVec. destruct (N.leb_spec (2^32) (lenN v)).
  - change (2^32) with 4294967296 in *. change (2^30) with 1073741824 in *. lia.
  - rewrite Hp. reflexivity.
Qed.

Lemma readOpaqueVec_RT : RT readOpaqueVec writeOpaqueVec (fun _ => True).
Proof.
  intros v e rest _ He. apply writeOpaqueVec_ok in He. destruct He as (Hb & p & Hp & ->).
  unfold readOpaqueVec, rd_bind. rewrite <- app_assoc.
  rewrite (readVarint_RT _ _ _ I Hp). apply readN_app.
Qed.

Lemma readOpaqueVec_CAN : CAN readOpaqueVec writeOpaqueVec (fun v => lenN v < 2^30) (fun _ => True).
Proof.
  intros s v rest H. unfold readOpaqueVec, rd_bind in H.
  destruct (readVarint s) as [[n|e|p|] s'] eqn:E; try discriminate.
  apply readVarint_inv in E. destruct E as (Hn & e & He & ->).
  apply readN_inv in H. destruct H as [-> Hl]. subst n. split; [assumption|].
  intros _. exists (e ++ v). split.
  - destruct (writeOpaqueVec_bound v Hn) as (p & Hp & Hw). rewrite Hp in He. inversion He; subst. assumption.
  - now rewrite app_assoc.
Qed.

Lemma readOpaqueVec_SAFE : SAFE readOpaqueVec.
Proof.
  intros s. unfold readOpaqueVec, rd_bind. pose proof (readVarint_SAFE s) as H.
  destruct (readVarint s) as [[n|e|p|] s']; auto.
  pose proof (readN_cases n s') as H1.
  destruct (readN n s') as [[v|e|p|] s2]; auto.
  - destruct H1 as [-> _]. rewrite app_length in H. lia.
  - destruct H1 as [-> _]. lia.
Qed.

(** ** vectors *)
Lemma readVectorLoop_RT {A} (r : reader A) w wf :
  RT r w wf -> SAFE r ->
  forall l e fuel, Forall wf l -> writeAll w l = Ok e -> (length e <= fuel)%nat ->
  readVectorLoop fuel r e = Ok l.
Proof.
  intros HRT HS. induction l as [|x l IH]; intros e fuel Hwf He Hfuel; cbn [writeAll] in He.
  - inversion He; subst. destruct fuel; reflexivity.
  - apply wapp_ok in He. destruct He as (ex & el & Hx & Hl & ->).
    inversion Hwf; subst.
    pose proof (HRT x ex el H1 Hx) as Hr.
    pose proof (HS (ex ++ el)) as Hs. rewrite Hr in Hs.
    destruct (ex ++ el) as [|b bs] eqn:E; [cbn in Hs; lia|].
    rewrite <- E in *. destruct fuel as [|fuel].
    { rewrite E in Hfuel; cbn in Hfuel; lia. }
    rewrite E. cbn [readVectorLoop]. rewrite <- E, Hr.
    rewrite (IH el fuel); auto. lia.
Qed.

Lemma readVector_RT {A} (r : reader A) w wf :
  RT r w wf -> SAFE r -> RT (readVector r) (writeVector w) (Forall wf).
Proof.
  intros HRT HS l e rest Hwf He. unfold writeVector in He.
  destruct (writeAll w l) as [raw|?|?|] eqn:Ew; try discriminate.
  apply writeOpaqueVec_ok in He. destruct He as (Hb & p & Hp & ->).
  unfold readVector, rd_bind. rewrite <- app_assoc.
  rewrite (readVarint_RT _ _ _ I Hp). rewrite readN_app.
  f_equal. eapply readVectorLoop_RT; eauto.
Qed.

Lemma readVectorLoop_CAN {A} (r : reader A) w wf good :
  CAN r w wf good ->
  forall fuel ss l, readVectorLoop fuel r ss = Ok l ->
    Forall wf l /\ (Forall good l -> writeAll w l = Ok ss).
Proof.
  intros HC. induction fuel as [|fuel IH]; intros [|b ss] l H; cbn [readVectorLoop] in H; try discriminate.
  - inversion H; subst. split; [constructor|reflexivity].
  - inversion H; subst. split; [constructor|reflexivity].
  - destruct (r (b :: ss)) as [[a|e|p|] ss'] eqn:E; try discriminate.
    apply rmap_ok in H. destruct H as (l' & Hl & ->).
    apply IH in Hl. destruct Hl as [Hwf Hw].
    apply HC in E. destruct E as [Ha He].
    split; [constructor; auto|].
    intros Hg. inversion Hg; subst. destruct (He H1) as (e & Hae & Hss).
    cbn [writeAll]. rewrite Hae, (Hw H2), Hss. reflexivity.
Qed.

Lemma readVector_CAN {A} (r : reader A) w wf good :
  CAN r w wf good -> CAN (readVector r) (writeVector w) (Forall wf) (Forall good).
Proof.
  intros HC s l rest H. unfold readVector, rd_bind in H.
  destruct (readVarint s) as [[n|e|p|] s'] eqn:E; try discriminate.
  destruct (readN n s') as [[vec|e|p|] s2] eqn:E2; try discriminate.
  inversion H; subst.
  pose proof (readVectorLoop_CAN r w wf good HC _ _ _ H1) as [Hwf Hw].
  split; auto. intros Hg. unfold writeVector. rewrite (Hw Hg).
  apply readVarint_inv in E. destruct E as (Hn & e & He & ->).
  apply readN_inv in E2. destruct E2 as [-> Hl]. subst n.
  destruct (writeOpaqueVec_bound vec Hn) as (p & Hp & Hwo). rewrite Hp in He. inversion He; subst.
  exists (e ++ vec). split; auto. now rewrite app_assoc.
Qed.

Lemma readVectorLoop_SAFE {A} (r : reader A) :
  SAFE r -> forall fuel ss, (length ss <= fuel)%nat -> no_crash (readVectorLoop fuel r ss).
Proof.
  intros HS. induction fuel as [|fuel IH]; intros [|b ss] Hl; cbn [readVectorLoop no_crash]; auto.
  - cbn in Hl. lia.
  - pose proof (HS (b :: ss)) as H.
    destruct (r (b :: ss)) as [[a|e|p|] ss'] eqn:E; cbn [no_crash]; auto.
    assert (Hn : no_crash (readVectorLoop fuel r ss')) by (apply IH; cbn in *; lia).
    destruct (readVectorLoop fuel r ss'); cbn in *; auto.
Qed.

Lemma readVector_SAFE {A} (r : reader A) : SAFE r -> SAFE (readVector r).
Proof.
  intros HS s. unfold readVector, rd_bind.
  pose proof (readVarint_SAFE s) as H.
  destruct (readVarint s) as [[n|e|p|] s']; auto.
  pose proof (readN_cases n s') as H1.
  destruct (readN n s') as [[vec|e|p|] s2]; auto.
  - destruct H1 as [-> Hl]. rewrite app_length in H.
    pose proof (readVectorLoop_SAFE r HS (length vec) vec (Nat.le_refl _)) as Hn.
    destruct (readVectorLoop (length vec) r vec); cbn in *; auto; lia.
  - destruct H1 as [-> _]. lia.
Qed.

Lemma writeAll_no_crash {A} (w : A -> W) wf l : WSAFE w wf -> Forall wf l -> no_crash (writeAll w l).
Proof.
  intros HW H. induction H; cbn [writeAll]; [exact I|].
  apply wapp_no_crash; auto.
Qed.

Lemma writeVector_WSAFE {A} (w : A -> W) wf : WSAFE w wf -> WSAFE (writeVector w) (Forall wf).
Proof.
  intros HW l Hl. unfold writeVector.
  pose proof (writeAll_no_crash w wf l HW Hl) as H.
  destruct (writeAll w l); auto. apply writeOpaqueVec_no_crash.
Qed.

(** ** optional *)
Lemma readOptional_RT : RT readOptional writeOptional (fun _ => True).
Proof.
  intros b e rest _ He. unfold writeOptional, addUint8 in He. rewrite be1 in He. injection He as <-. cbn [app].
  unfold readOptional, rd_bind. rewrite readUint8_cons, b2n_n2b.
  destruct b; reflexivity.
Qed.

Lemma readOptional_CAN : CAN readOptional writeOptional (fun _ => True) (fun _ => True).
Proof.
  intros s x rest H. split; [exact I|]. intros _.
  unfold readOptional, rd_bind in H. destruct s as [|b s]; [discriminate|].
  rewrite readUint8_cons in H.
  destruct (N.eqb_spec (b2n b) 0) as [H0|H0].
  - inversion H; subst. exists [b]. split; [|reflexivity]. unfold writeOptional, addUint8.
    rewrite be1. rewrite <- H0, n2b_b2n. reflexivity.
  - destruct (N.eqb_spec (b2n b) 1) as [H1|H1]; [|discriminate].
    inversion H; subst. exists [b]. split; [|reflexivity]. unfold writeOptional, addUint8.
    rewrite be1. rewrite <- H1, n2b_b2n. reflexivity.
Qed.

Lemma readOptional_SAFE : SAFE readOptional.
Proof.
  intros s. unfold readOptional, rd_bind. destruct s as [|b s].
  - rewrite readUint8_nil. cbn. lia.
  - rewrite readUint8_cons. destruct (b2n b =? 0); [cbn; lia|]. destruct (b2n b =? 1); cbn; lia.
Qed.

(** ** whole-input decoding *)
Lemma unmarshal_ok {A} (r : reader A) raw a : unmarshal r raw = Ok a <-> r raw = (Ok a, []).
Proof.
  unfold unmarshal. destruct (r raw) as [[x|e|p|] [|b s]]; split; intros H; inversion H; auto.
Qed.

Lemma unmarshal_RT {A} (r : reader A) w wf x e :
  RT r w wf -> wf x -> w x = Ok e -> unmarshal r e = Ok x.
Proof.
  intros HR Hx He. apply unmarshal_ok. rewrite <- (app_nil_r e). now apply HR.
Qed.

Lemma unmarshal_CAN {A} (r : reader A) w wf good x raw :
  CAN r w wf good -> unmarshal r raw = Ok x -> wf x /\ (good x -> w x = Ok raw).
Proof.
  intros HC H. apply unmarshal_ok in H. apply HC in H. destruct H as [Hw He].
  split; auto. intros Hg. destruct (He Hg) as (e & He1 & He2). rewrite app_nil_r in He2. congruence.
Qed.

Lemma unmarshal_SAFE {A} (r : reader A) raw : SAFE r -> no_crash (unmarshal r raw).
Proof.
  intros HS. unfold unmarshal. specialize (HS raw).
  destruct (r raw) as [[x|e|p|] [|b s]]; cbn; auto.
Qed.

(** Encoders of decodable types are injective. *)
Lemma RT_inj {A} (r : reader A) w wf x y e :
  RT r w wf -> wf x -> wf y -> w x = Ok e -> w y = Ok e -> x = y.
Proof.
  intros HR Hx Hy H1 H2.
  pose proof (HR x e [] Hx H1) as E1. pose proof (HR y e [] Hy H2) as E2. congruence.
Qed.

(** ... and prefix-free. *)
Lemma RT_app_inj {A} (r : reader A) w wf x y ex ey rx ry :
  RT r w wf -> wf x -> wf y -> w x = Ok ex -> w y = Ok ey -> ex ++ rx = ey ++ ry ->
  x = y /\ ex = ey /\ rx = ry.
Proof.
  intros HR Hx Hy H1 H2 Heq.
  pose proof (HR x ex rx Hx H1) as E1. pose proof (HR y ey ry Hy H2) as E2.
  rewrite Heq in E1. rewrite E1 in E2. inversion E2; subst.
  rewrite H1 in H2. inversion H2; auto.
Qed.
