From Verif Require Import Base BaseProofs Util.
Open Scope N_scope.

Lemma pow2_and_pred k : N.land (2 ^ k) (2 ^ k - 1) = 0.
Proof.
  replace (2 ^ k - 1) with (N.ones k) by (rewrite N.ones_equiv, N.pred_sub; reflexivity).
  rewrite N.land_ones. apply N.mod_same. apply N.pow_nonzero; lia.
Qed.

Lemma mask_ldiff s k : s < u64_lim -> k <= 64 ->
  N.land s (N.lxor (2 ^ k - 1) (u64_lim - 1)) = N.ldiff s (N.ones k).
Proof.
  intros Hs Hk.
  replace (2 ^ k - 1) with (N.ones k) by (rewrite N.ones_equiv, N.pred_sub; reflexivity).
  change (u64_lim - 1) with (N.ones 64).
  apply N.bits_inj; intros i. rewrite N.land_spec, N.lxor_spec, N.ldiff_spec.
  destruct (N.lt_ge_cases i 64) as [Hi|Hi].
  - rewrite (N.ones_spec_low 64 i) by lia. destruct (N.testbit (N.ones k) i); reflexivity.
  - assert (E : N.testbit s i = false).
    { destruct (N.eq_dec s 0) as [->|Hz]; [apply N.bits_0|].
      apply N.bits_above_log2. assert (N.log2 s < 64); [|lia].
      apply N.log2_lt_pow2; [lia|]. exact Hs. }
    rewrite E. reflexivity.
Qed.

Lemma round_up_value p num k : k < 64 -> num <= u64_lim - 2 ^ k ->
  round_upto_power_of_2 p num (2 ^ k) = Ret ((num + (2 ^ k - 1)) / 2 ^ k * 2 ^ k).
Proof.
  intros Hk Hn.
  assert (Hf : 0 < 2 ^ k) by (apply N.neq_0_lt_0, N.pow_nonzero; lia).
  assert (Hf2 : 2 ^ k < u64_lim) by (change u64_lim with (2 ^ 64); apply N.pow_lt_mono_r; lia).
  unfold round_upto_power_of_2.
  assert (E : match p with
     | Debug => if (0 <? 2 ^ k) && (N.land (2 ^ k) (2 ^ k - 1) =? 0) then Ret tt else Panic PAssert
     | Release => Ret tt end = Ret tt).
  { destruct p; [|reflexivity]. rewrite pow2_and_pred.
    destruct (N.ltb_spec 0 (2 ^ k)); [reflexivity|lia]. }
  rewrite E, bind_ret. clear E.
  rewrite sub64_ok by lia. rewrite bind_ret.
  rewrite add64_ok by lia. rewrite bind_ret.
  rewrite mask_ldiff by lia. rewrite N.ldiff_ones_r.
  rewrite N.shiftl_mul_pow2, N.shiftr_div_pow2. reflexivity.
Qed.

Lemma round_up_ok p num k : k < 64 -> num <= u64_lim - 2 ^ k ->
  exists r, round_upto_power_of_2 p num (2 ^ k) = Ret r
    /\ num <= r /\ N.divide (2 ^ k) r /\ (forall m, num <= m -> N.divide (2 ^ k) m -> r <= m).
Proof.
  intros Hk Hn. eexists; split; [apply round_up_value; assumption|].
  assert (Hf : 2 ^ k <> 0) by (apply N.pow_nonzero; lia).
  set (f := 2 ^ k) in *. set (q := (num + (f - 1)) / f).
  assert (H1 : f * q <= num + (f - 1)) by (apply N.mul_div_le; exact Hf).
  assert (H2 : num + (f - 1) < f * N.succ q) by (apply N.mul_succ_div_gt; exact Hf).
  repeat split.
  - lia.
  - exists q; reflexivity.
  - intros m Hm [c ->].
    assert (q <= c); [|nia].
    apply N.lt_succ_r. apply N.mul_lt_mono_pos_l with f; lia.
Qed.

Lemma round_up_overflow num k : k < 64 -> num < u64_lim -> u64_lim - 2 ^ k < num ->
  round_upto_power_of_2 Debug num (2 ^ k) = Panic POverflow.
Proof.
  intros Hk Hn Ho.
  assert (Hf : 0 < 2 ^ k) by (apply N.neq_0_lt_0, N.pow_nonzero; lia).
  assert (Hf2 : 2 ^ k < u64_lim) by (change u64_lim with (2 ^ 64); apply N.pow_lt_mono_r; lia).
  unfold round_upto_power_of_2. rewrite pow2_and_pred.
  destruct (N.ltb_spec 0 (2 ^ k)); [|lia]. cbn [andb N.eqb]. rewrite bind_ret.
  rewrite sub64_ok by lia. rewrite bind_ret.
  unfold add64, uadd. destruct (N.ltb_spec (num + (2 ^ k - 1)) u64_lim); [lia|]. reflexivity.
Qed.

Lemma ceil8_ok v : v <= 8 * ceil8 v /\ (forall n, v <= 8 * n -> ceil8 v <= n).
Proof.
  unfold ceil8. pose proof (N.div_mod' v 8) as E. assert (v mod 8 < 8) by (apply N.mod_lt; lia).
  destruct (N.eqb_spec (v mod 8) 0); split; intros; lia.
Qed.

Lemma ceil8_spec v : ceil8 v = (v + 7) / 8.
Proof.
  unfold ceil8. pose proof (N.div_mod' v 8) as E. assert (v mod 8 < 8) by (apply N.mod_lt; lia).
  destruct (N.eqb_spec (v mod 8) 0).
  - apply (N.div_unique _ 8 _ 7); lia.
  - apply (N.div_unique _ 8 _ (v mod 8 - 1)); lia.
Qed.
