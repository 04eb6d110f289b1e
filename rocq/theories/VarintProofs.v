From Verif Require Import Base BaseProofs Spec Varint.
From Verif Require Export VarintDecodeProofs.
Open Scope N_scope.

Arguments N.add : simpl never.
Arguments N.mul : simpl never.
Arguments N.sub : simpl never.
Arguments N.modulo : simpl never.
Arguments N.div : simpl never.
Arguments N.shiftl : simpl never.
Arguments N.pow : simpl never.
Arguments N.ltb : simpl never.
Arguments N.leb : simpl never.


(** Every byte string falls in exactly one of the three cases above. *)
Lemma varint_cases bs :
  (exists pre b rest, bs = pre ++ b :: rest /\ Forall continues pre /\ b < 128 /\ (length pre < 10)%nat)
  \/ (exists pre rest, bs = pre ++ rest /\ Forall continues pre /\ length pre = 10%nat)
  \/ (Forall continues bs /\ (length bs < 10)%nat).
Proof.
  assert (H : forall n bs,
    (exists pre b rest, bs = pre ++ b :: rest /\ Forall continues pre /\ b < 128 /\ (length pre < n)%nat)
    \/ (exists pre rest, bs = pre ++ rest /\ Forall continues pre /\ length pre = n)
    \/ (Forall continues bs /\ (length bs < n)%nat)).
  { induction n as [|n IH]; intros l.
    - right; left. exists [], l. auto.
    - destruct l as [|b l].
      + right; right. split; [constructor | simpl; lia].
      + destruct (N.lt_ge_cases b 128) as [Hb|Hb].
        * left. exists [], b, l. simpl. repeat split; auto. lia.
        * destruct (IH l) as [(pre & b' & rest & -> & H1 & H2 & H3) | [(pre & rest & -> & H1 & H2) | [H1 H2]]].
          -- left. exists (b :: pre), b', rest. simpl. repeat split; auto; try lia.
          -- right; left. exists (b :: pre), rest. simpl. repeat split; auto; try lia.
          -- right; right. simpl. split; [constructor; auto | lia]. }
  apply H.
Qed.

(** ** Encoding *)

(** The bytes the loop writes. *)
Fixpoint vbytes (fuel : nat) (v : N) : list N :=
  match fuel with
  | O => []
  | S f => if 128 <=? v then (128 + v mod 128) :: vbytes f (v / 128) else [v]
  end.

Definition varint_bytes (v : N) : list N := vbytes 10 v.

Lemma enc_byte v : N.lor (N.land v 0x7F) 0x80 mod 256 = 128 + v mod 128.
Proof.
  change 0x7F with (N.ones 7). rewrite N.land_ones. change (2 ^ 7) with 128.
  assert (H : v mod 128 < 128) by (apply N.mod_lt; lia).
  replace (N.lor (v mod 128) 128) with (128 + v mod 128).
  - apply N.mod_small; lia.
  - rewrite N.add_comm. rewrite <- N.lxor_lor.
    + rewrite N.add_nocarry_lxor; [reflexivity|].
      apply N.bits_inj_0; intros k. rewrite N.land_spec.
      destruct (N.eq_dec k 7) as [->|Hk].
      * rewrite N.testbit_eqb. change (2 ^ 7) with 128. rewrite (N.div_small (v mod 128)) by lia. reflexivity.
      * change 128 with (2 ^ 7) at 2. rewrite N.pow2_bits_false by auto. apply andb_false_r.
    + apply N.bits_inj_0; intros k. rewrite N.land_spec.
      destruct (N.eq_dec k 7) as [->|Hk].
      * rewrite N.testbit_eqb. change (2 ^ 7) with 128. rewrite (N.div_small (v mod 128)) by lia. reflexivity.
      * change 128 with (2 ^ 7) at 2. rewrite N.pow2_bits_false by auto. apply andb_false_r.
Qed.

Lemma shiftr7 v : N.shiftr v 7 = v / 128.
Proof. rewrite N.shiftr_div_pow2. reflexivity. Qed.

Lemma vbytes_length_pos f v : (1 <= length (vbytes (S f) v))%nat.
Proof. cbn [vbytes]. destruct (128 <=? v); simpl; lia. Qed.

Lemma vbytes_length_le f v : (length (vbytes f v) <= f)%nat.
Proof.
  revert v; induction f as [|f IH]; intros v; cbn [vbytes]; [simpl; lia|].
  destruct (128 <=? v); cbn [length]; [specialize (IH (v / 128)) |]; lia.
Qed.

Lemma div128_lt f v : v < 2 ^ (7 * N.of_nat (S f)) -> v / 128 < 2 ^ (7 * N.of_nat f).
Proof.
  intros H. apply N.div_lt_upper_bound; [lia|].
  replace (7 * N.of_nat (S f)) with (7 + 7 * N.of_nat f) in H by lia.
  rewrite N.pow_add_r in H. exact H.
Qed.

Lemma encode_loop_ok f v buf i :
  v < 2 ^ (7 * N.of_nat (S f)) -> (i + length (vbytes (S f) v) <= length buf)%nat ->
  encode_varint_loop (S f) v buf i
  = Ret (firstn i buf ++ vbytes (S f) v ++ skipn (i + length (vbytes (S f) v)) buf,
         (i + length (vbytes (S f) v))%nat).
Proof.
  revert v buf i; induction f as [|f IH]; intros v buf i Hv Hlen.
  - cbn [encode_varint_loop vbytes] in *. change (2 ^ (7 * N.of_nat 1)) with 128 in Hv.
    change 0x80 with 128 in *.
    destruct (N.leb_spec 128 v); [lia|]. cbn [length] in *.
    rewrite upd_ok by lia. rewrite bind_ret.
    rewrite set_nth_split by lia. rewrite N.mod_small by lia.
    rewrite Nat.add_1_r. reflexivity.
  - set (F := S f) in *. cbn [encode_varint_loop vbytes] in *.
    destruct (N.leb_spec 128 v); cbn [length] in *.
    + rewrite upd_ok by lia. rewrite bind_ret. rewrite enc_byte, shiftr7.
      subst F. rewrite IH; [ | apply div128_lt; exact Hv | rewrite set_nth_length; lia ].
      rewrite set_nth_split by lia.
      assert (E1 : firstn (S i) (firstn i buf ++ (128 + v mod 128) :: skipn (S i) buf)
                   = firstn i buf ++ [128 + v mod 128]).
      { rewrite firstn_app. rewrite firstn_firstn. rewrite firstn_length.
        replace (Nat.min (S i) i) with i by lia.
        replace (S i - Nat.min i (length buf))%nat with 1%nat by lia. reflexivity. }
      rewrite E1.
      set (k := length (vbytes (S f) (v / 128))) in *.
      assert (E2 : skipn (S i + k) (firstn i buf ++ (128 + v mod 128) :: skipn (S i) buf)
                   = skipn (i + S k) buf).
      { rewrite skipn_app. rewrite skipn_all2 by (rewrite firstn_length; lia).
        rewrite firstn_length. replace (S i + k - Nat.min i (length buf))%nat with (S k) by lia.
        rewrite skipn_cons. cbn [app]. rewrite skipn_skipn_add. f_equal; lia. }
      rewrite E2. rewrite <- app_assoc. cbn [app].
      replace (S i + k)%nat with (i + S k)%nat by lia. reflexivity.
    + rewrite upd_ok by lia. rewrite bind_ret.
      rewrite set_nth_split by lia. rewrite N.mod_small by lia.
      rewrite Nat.add_1_r. reflexivity.
Qed.

Lemma encode_loop_short f v buf i :
  (length buf < i + length (vbytes (S f) v))%nat -> v < 2 ^ (7 * N.of_nat (S f)) ->
  encode_varint_loop (S f) v buf i = Panic PIndex.
Proof.
  revert v buf i; induction f as [|f IH]; intros v buf i Hlen Hv.
  - cbn [encode_varint_loop vbytes] in *. change (2 ^ (7 * N.of_nat 1)) with 128 in Hv.
    change 0x80 with 128 in *.
    destruct (N.leb_spec 128 v); [lia|]. cbn [length] in *.
    rewrite upd_oob by lia. reflexivity.
  - set (F := S f) in *. cbn [encode_varint_loop vbytes] in *. change 0x80 with 128 in *.
    destruct (N.leb_spec 128 v); cbn [length] in *.
    + destruct (Nat.le_gt_cases (length buf) i).
      * rewrite upd_oob by lia. reflexivity.
      * rewrite upd_ok by lia. rewrite bind_ret, shiftr7. subst F.
        apply IH; [rewrite set_nth_length; lia | apply div128_lt; exact Hv].
    + rewrite upd_oob by lia. reflexivity.
Qed.

Lemma u64_fuel v : v < u64_lim -> v < 2 ^ (7 * N.of_nat 10).
Proof. intros H. eapply N.lt_le_trans; [exact H|]. vm_compute. discriminate. Qed.

Lemma encode_varint_ok v buf :
  v < u64_lim -> (length (varint_bytes v) <= length buf)%nat ->
  encode_varint v buf
  = Ret (varint_bytes v ++ skipn (length (varint_bytes v)) buf, length (varint_bytes v)).
Proof.
  intros Hv Hlen. unfold encode_varint, MAX_VARINT_LEN.
  rewrite encode_loop_ok; [reflexivity | apply u64_fuel; exact Hv | exact Hlen].
Qed.

Lemma encode_varint_short v buf :
  v < u64_lim -> (length buf < length (varint_bytes v))%nat ->
  encode_varint v buf = Panic PIndex.
Proof.
  intros Hv Hlen. unfold encode_varint, MAX_VARINT_LEN.
  apply encode_loop_short; [exact Hlen | apply u64_fuel; exact Hv].
Qed.

Lemma varint_bytes_length v : (1 <= length (varint_bytes v) <= 10)%nat.
Proof. unfold varint_bytes. pose proof (vbytes_length_pos 9 v). pose proof (vbytes_length_le 10 v). lia. Qed.

Lemma put_varint_ok vec v : v < u64_lim -> put_varint vec v = Ret (vec ++ varint_bytes v).
Proof.
  intros Hv. unfold put_varint. pose proof (varint_bytes_length v) as HL.
  rewrite encode_varint_ok; [| exact Hv | rewrite repeat_length; unfold MAX_VARINT_LEN; lia].
  rewrite bind_ret. cbn [fst snd].
  rewrite slice_ok; [| lia | rewrite app_length; lia].
  rewrite bind_ret. rewrite Nat.sub_0_r. cbn [skipn]. rewrite firstn_app_exact. reflexivity.
Qed.

(** Shape of the bytes written. *)
Lemma vbytes_shape f v : v < 2 ^ (7 * N.of_nat (S f)) ->
  exists pre b, vbytes (S f) v = pre ++ [b] /\ bytes_ok pre /\ Forall continues pre /\ b < 128
    /\ groups_value (pre ++ [b]) = v /\ (pre <> [] -> 0 < b).
Proof.
  revert v; induction f as [|f IH]; intros v Hv.
  - change (2 ^ (7 * N.of_nat 1)) with 128 in Hv. cbn [vbytes].
    destruct (N.leb_spec 128 v); [lia|].
    exists [], v. simpl. rewrite (N.mod_small v 128) by lia.
    repeat split; try constructor; try lia. congruence.
  - set (F := S f) in *. cbn [vbytes]. destruct (N.leb_spec 128 v).
    + destruct (IH (v / 128)) as (pre & b & E & Hok & Hc & Hb & Hg & Hne); [apply div128_lt; exact Hv|].
      exists ((128 + v mod 128) :: pre), b. rewrite E.
      assert (Hm : v mod 128 < 128) by (apply N.mod_lt; lia).
      repeat split.
      * constructor; [unfold byte_ok; lia | exact Hok].
      * constructor; [unfold continues; lia | exact Hc].
      * exact Hb.
      * cbn [app groups_value]. rewrite Hg, low7 by lia. rewrite (N.div_mod' v 128) at 3. lia.
      * intros _. destruct pre as [|x pre].
        -- cbn [app groups_value] in Hg. rewrite (N.mod_small b 128) in Hg by lia.
           assert (1 <= v / 128) by (apply N.div_le_lower_bound; lia). lia.
        -- apply Hne. discriminate.
    + exists [], v. simpl. rewrite (N.mod_small v 128) by lia.
      repeat split; try constructor; try lia. congruence.
Qed.

Lemma varint_bytes_shape v : v < u64_lim ->
  exists pre b, varint_bytes v = pre ++ [b] /\ bytes_ok pre /\ Forall continues pre /\ b < 128
    /\ groups_value (pre ++ [b]) = v /\ (length pre < 10)%nat /\ (pre <> [] -> 0 < b).
Proof.
  intros Hv. destruct (vbytes_shape 9 v (u64_fuel v Hv)) as (pre & b & E & H1 & H2 & H3 & H4 & H5).
  exists pre, b. repeat split; auto.
  pose proof (varint_bytes_length v) as HL. unfold varint_bytes in HL. rewrite E in HL.
  rewrite app_length in HL. cbn [length] in HL. lia.
Qed.

Lemma varint_bytes_ok v : v < u64_lim -> bytes_ok (varint_bytes v).
Proof.
  intros Hv. destruct (varint_bytes_shape v Hv) as (pre & b & -> & H1 & _ & H3 & _).
  apply bytes_ok_app; split; auto. constructor; [unfold byte_ok; lia | constructor].
Qed.

Lemma decode_varint_bytes p v rest : v < u64_lim ->
  decode_varint p (varint_bytes v ++ rest) = Ret (Ok (v, length (varint_bytes v))).
Proof.
  intros Hv. destruct (varint_bytes_shape v Hv) as (pre & b & -> & H1 & H2 & H3 & H4 & H5 & _).
  rewrite <- app_assoc. cbn [app]. rewrite decode_stop by auto.
  rewrite H4. rewrite N.mod_small by exact Hv. rewrite app_length. cbn [length].
  rewrite Nat.add_1_r. reflexivity.
Qed.

Lemma varint_bytes_inj v w rest rest' : v < u64_lim -> w < u64_lim ->
  varint_bytes v ++ rest = varint_bytes w ++ rest' -> v = w /\ rest = rest'.
Proof.
  intros Hv Hw E.
  pose proof (decode_varint_bytes Debug v rest Hv) as H1.
  pose proof (decode_varint_bytes Debug w rest' Hw) as H2.
  rewrite E in H1. rewrite H2 in H1. inversion H1; subst. split; auto.
  eapply app_inv_head; exact E.
Qed.

(** ** Length *)

Lemma groups_value_upper bs : groups_value bs < 128 ^ N.of_nat (length bs).
Proof.
  induction bs as [|b bs IH]; [vm_compute; reflexivity|].
  cbn [groups_value length]. rewrite Nat2N.inj_succ, N.pow_succ_r'.
  assert (b mod 128 < 128) by (apply N.mod_lt; lia). lia.
Qed.

Lemma groups_value_lower pre b : 0 < b -> b < 128 ->
  128 ^ N.of_nat (length pre) <= groups_value (pre ++ [b]).
Proof.
  intros Hb Hb'. induction pre as [|x pre IH].
  - simpl. rewrite N.mod_small by lia. change (128 ^ 0) with 1. lia.
  - cbn [app groups_value length]. rewrite Nat2N.inj_succ, N.pow_succ_r'. lia.
Qed.

Lemma pow128 n : 128 ^ n = 2 ^ (7 * n).
Proof. change 128 with (2 ^ 7). rewrite <- N.pow_mul_r. reflexivity. Qed.

(** The length is the number of 7-bit groups of the value. *)
Lemma varint_length_log2 v : v < u64_lim ->
  N.of_nat (length (varint_bytes v)) = N.log2 (N.lor v 1) / 7 + 1.
Proof.
  intros Hv. destruct (varint_bytes_shape v Hv) as (pre & b & -> & H1 & H2 & H3 & H4 & H5 & H6).
  rewrite app_length. cbn [length].
  assert (HL : N.log2 (N.lor v 1) = N.log2 v).
  { rewrite N.log2_lor. change (N.log2 1) with 0. lia. }
  rewrite HL.
  pose proof (groups_value_upper (pre ++ [b])) as HU. rewrite H4, app_length in HU. cbn [length] in HU.
  destruct pre as [|x pre].
  - change (128 ^ N.of_nat (length (@nil N) + 1)) with 128 in HU. cbn [length].
    assert (N.log2 v < 7).
    { destruct (N.eq_dec v 0) as [->|Hz]; [vm_compute; reflexivity|]. apply N.log2_lt_pow2; [lia|]. exact HU. }
    rewrite N.div_small by lia. reflexivity.
  - assert (Hb : 0 < b) by (apply H6; discriminate).
    pose proof (groups_value_lower (x :: pre) b Hb H3) as HLo. rewrite H4 in HLo.
    set (n := N.of_nat (length (x :: pre))) in *.
    replace (N.of_nat (length (x :: pre) + 1)) with (n + 1) in * by lia.
    rewrite pow128 in HU, HLo.
    assert (Hpos : 0 < v). { eapply N.lt_le_trans; [|exact HLo]. apply N.neq_0_lt_0, N.pow_nonzero; lia. }
    assert (7 * n <= N.log2 v) by (apply N.log2_le_pow2; assumption).
    assert (N.log2 v < 7 * (n + 1)) by (apply N.log2_lt_pow2; assumption).
    replace (N.log2 v / 7) with n; [reflexivity|].
    apply (N.div_unique _ 7 n (N.log2 v - 7 * n)); lia.
Qed.

Lemma log2_u64 v : v < u64_lim -> N.log2 (N.lor v 1) <= 63.
Proof.
  intros Hv. rewrite N.log2_lor. change (N.log2 1) with 0.
  assert (N.log2 v <= 63); [|lia].
  destruct (N.eq_dec v 0) as [->|Hz]; [vm_compute; discriminate|].
  assert (N.log2 v < 64); [|lia]. apply N.log2_lt_pow2; [lia|exact Hv].
Qed.

Definition len_formula (l : N) : N := (N.lxor (63 - l) 63 * 9 + 73) / 64.

Lemma len_formula_sweep :
  forallb (fun l => len_formula l =? l / 7 + 1) (map N.of_nat (seq 0 64)) = true.
Proof. vm_compute. reflexivity. Qed.

Lemma len_formula_ok l : l <= 63 -> len_formula l = l / 7 + 1.
Proof.
  intros H. apply N.eqb_eq.
  assert (S := proj1 (forallb_forall _ _) len_formula_sweep l). cbv beta in S. apply S.
  rewrite <- (N2Nat.id l). apply in_map. apply in_seq. lia.
Qed.

Lemma encoded_len_ok v : v < u64_lim -> encoded_len_varint v = length (varint_bytes v).
Proof.
  intros Hv. unfold encoded_len_varint, leading_zeros64.
  assert (Hnz : N.lor v 1 <> 0). { intros E. apply N.lor_eq_0_iff in E. lia. }
  destruct (N.eqb_spec (N.lor v 1) 0); [contradiction|].
  pose proof (log2_u64 v Hv) as Hl. pose proof (varint_length_log2 v Hv) as HL.
  fold (len_formula (N.log2 (N.lor v 1))). rewrite len_formula_ok by exact Hl. lia.
Qed.

Lemma varint_length_mono v w : v <= w -> w < u64_lim ->
  (length (varint_bytes v) <= length (varint_bytes w))%nat.
Proof.
  intros H Hw.
  pose proof (varint_length_log2 v ltac:(lia)). pose proof (varint_length_log2 w Hw).
  rewrite !N.log2_lor in *. change (N.log2 1) with 0 in *. rewrite !N.max_0_r in *.
  pose proof (N.log2_le_mono v w H).
  assert (N.log2 v / 7 <= N.log2 w / 7) by (apply N.div_le_mono; lia). lia.
Qed.

(** No byte string denoting [v] is shorter. *)
Lemma varint_minimal p v bs n : v < u64_lim -> bytes_ok bs ->
  decode_varint p bs = Ret (Ok (v, n)) -> (length (varint_bytes v) <= n)%nat.
Proof.
  intros Hv Hok HD.
  destruct (varint_cases bs) as [(pre & b & rest & -> & H1 & H2 & H3) | [(pre & rest & -> & H1 & H2) | [H1 H2]]].
  - apply bytes_ok_app in Hok as [Hok _].
    rewrite decode_stop in HD by auto. inversion HD as [[E1 E2]]. clear HD E2.
    pose proof (groups_value_upper (pre ++ [b])) as HU. rewrite app_length in HU. cbn [length] in HU.
    assert (HV : v < 128 ^ N.of_nat (length pre + 1)).
    { rewrite <- E1. eapply N.le_lt_trans; [apply N.mod_le; unfold u64_lim; lia | exact HU]. }
    pose proof (varint_length_log2 v Hv) as HL.
    rewrite N.log2_lor in HL. change (N.log2 1) with 0 in HL. rewrite N.max_0_r in HL.
    rewrite pow128 in HV.
    assert (N.log2 v < 7 * N.of_nat (length pre + 1)).
    { destruct (N.eq_dec v 0) as [Hz|Hz]; [rewrite Hz; change (N.log2 0) with 0; lia|].
      apply N.log2_lt_pow2; [lia | exact HV]. }
    rewrite E1.
    assert (N.log2 v / 7 < N.of_nat (length pre + 1)) by (apply N.div_lt_upper_bound; lia).
    lia.
  - apply bytes_ok_app in Hok as [Hok _]. rewrite decode_overrun in HD by auto. discriminate.
  - rewrite decode_truncated in HD by auto. discriminate.
Qed.
