From Verif Require Import Base BaseProofs Spec Varint VarintProofs Buffers Observe BitmapProofs Rle.
Open Scope nat_scope.
Arguments N.add : simpl never.
Arguments N.mul : simpl never.
Arguments N.of_nat : simpl never.

(** ** Bits and bytes *)

Definition bits_of_byte (b : N) : list bool := map (fun i => N.testbit b (N.of_nat i)) (seq 0 8).

Lemma bits_value_testbit l : forall i, N.testbit (bits_value l) (N.of_nat i) = nth i l false.
Proof.
  induction l as [|b l IH]; intros i; cbn [bits_value].
  - rewrite N.bits_0. destruct i; reflexivity.
  - destruct i as [|i].
    + change (N.of_nat 0) with 0%N. destruct b; cbn [nth].
      * rewrite N.add_comm. apply N.testbit_odd_0.
      * rewrite N.add_0_l. apply N.testbit_even_0.
    + rewrite Nat2N.inj_succ. cbn [nth]. rewrite <- IH. destruct b.
      * rewrite N.add_comm. apply N.testbit_odd_succ. lia.
      * rewrite N.add_0_l. apply N.testbit_even_succ. lia.
Qed.

Lemma bits_value_snoc l b : bits_value (l ++ [b]) = (bits_value l + (if b then 2 ^ N.of_nat (length l) else 0))%N.
Proof.
  induction l as [|x l IH]; cbn [app bits_value length].
  - destruct b; reflexivity.
  - rewrite IH. rewrite Nat2N.inj_succ, N.pow_succ_r'. destruct b, x; lia.
Qed.

Lemma bits_value_lt l : (bits_value l < 2 ^ N.of_nat (length l))%N.
Proof.
  induction l as [|x l IH]; cbn [bits_value length].
  - reflexivity.
  - rewrite Nat2N.inj_succ, N.pow_succ_r'. destruct x; lia.
Qed.

Lemma lor_top l : N.lor (bits_value l) (2 ^ N.of_nat (length l)) = bits_value (l ++ [true]).
Proof.
  apply N.bits_inj. intros k. rewrite <- (N2Nat.id k).
  rewrite N.lor_spec, !bits_value_testbit.
  destruct (Nat.lt_total (N.to_nat k) (length l)) as [H|[H|H]].
  - rewrite app_nth1 by exact H. rewrite N.pow2_bits_false by lia. apply orb_false_r.
  - rewrite H. rewrite N.pow2_bits_true, orb_true_r. rewrite app_nth2 by lia. rewrite Nat.sub_diag. reflexivity.
  - rewrite N.pow2_bits_false by lia. rewrite !nth_overflow; [reflexivity| |lia].
    rewrite app_length; simpl; lia.
Qed.

Lemma nth_map_seq (f : nat -> bool) n i : i < n -> nth i (map f (seq 0 n)) false = f i.
Proof.
  intros H. rewrite (nth_indep _ false (f 0)) by (rewrite map_length, seq_length; exact H).
  rewrite map_nth. rewrite seq_nth by exact H. reflexivity.
Qed.

Lemma list_eq_nth (l1 l2 : list bool) : length l1 = length l2 ->
  (forall i, i < length l1 -> nth i l1 false = nth i l2 false) -> l1 = l2.
Proof.
  intros HL H. apply list_eq_nth_error; [exact HL|]. intros i Hi.
  rewrite !(nth_error_nth' _ _ false) by lia. f_equal. apply H; exact Hi.
Qed.

Lemma bits_of_value cur : length cur <= 8 ->
  bits_of_byte (bits_value cur) = cur ++ repeat false (8 - length cur).
Proof.
  intros H. unfold bits_of_byte. apply list_eq_nth.
  - rewrite map_length, seq_length, app_length, repeat_length. lia.
  - rewrite map_length, seq_length. intros i Hi. rewrite nth_map_seq by exact Hi.
    rewrite bits_value_testbit. destruct (Nat.lt_ge_cases i (length cur)).
    + rewrite app_nth1 by lia. reflexivity.
    + rewrite app_nth2 by lia. rewrite (nth_overflow cur) by lia.
      rewrite nth_repeat. reflexivity.
Qed.

Lemma bits_of_byte_length b : length (bits_of_byte b) = 8.
Proof. reflexivity. Qed.

Definition bits_of_bytes (bs : list N) : list bool := flat_map bits_of_byte bs.

Lemma bits_of_bytes_app a b : bits_of_bytes (a ++ b) = bits_of_bytes a ++ bits_of_bytes b.
Proof. unfold bits_of_bytes. rewrite !flat_map_concat_map, map_app, concat_app. reflexivity. Qed.

Lemma bits_of_bytes_length bs : length (bits_of_bytes bs) = 8 * length bs.
Proof.
  induction bs as [|b bs IH]; [reflexivity|].
  change (bits_of_bytes (b :: bs)) with (bits_of_byte b ++ bits_of_bytes bs).
  rewrite app_length, bits_of_byte_length, IH. cbn [length]. lia.
Qed.

(** ** Frames *)

Definition frame_bytes (f : rle_frame) : list N :=
  match f with
  | FRun len v => varint_bytes (2 * len) ++ [v]
  | FBitmap l => varint_bytes (2 * N.of_nat (length l) + 1) ++ l
  end.

Definition frame_exp (f : rle_frame) : list N :=
  match f with
  | FRun len v => repeat v (N.to_nat len)
  | FBitmap l => l
  end.

Definition enc_of (fs : list rle_frame) : list N := flat_map frame_bytes fs.
Definition exp_of (fs : list rle_frame) : list N := flat_map frame_exp fs.

Lemma enc_of_app a b : enc_of (a ++ b) = enc_of a ++ enc_of b.
Proof. unfold enc_of. rewrite !flat_map_concat_map, map_app, concat_app. reflexivity. Qed.
Lemma exp_of_app a b : exp_of (a ++ b) = exp_of a ++ exp_of b.
Proof. unfold exp_of. rewrite !flat_map_concat_map, map_app, concat_app. reflexivity. Qed.

(** ** Sizes of frames *)

Lemma varint_len_cases v : (v < u64_lim)%N ->
  ((v < 128)%N -> length (varint_bytes v) = 1) /\ ((v < 16384)%N -> length (varint_bytes v) <= 2).
Proof.
  intros Hv. unfold varint_bytes. split; intros H; cbn [vbytes].
  - destruct (N.leb_spec 128 v); [lia|]. reflexivity.
  - destruct (N.leb_spec 128 v); [|cbn [length]; lia].
    destruct (N.leb_spec 128 (v / 128)) as [H2|H2]; [|cbn [length]; lia].
    exfalso. assert (v / 128 < 128)%N by (apply N.div_lt_upper_bound; lia). lia.
Qed.

Lemma literal_cost l : (2 * N.of_nat (length l) + 1 < u64_lim)%N ->
  length (frame_bytes (FBitmap l)) <= length l + 1 + length l / 64.
Proof.
  intros H. cbn [frame_bytes]. rewrite app_length.
  destruct (varint_len_cases _ H) as [H1 H2]. pose proof (varint_bytes_length (2 * N.of_nat (length l) + 1)).
  pose proof (Nat.div_mod (length l) 64). pose proof (Nat.mod_upper_bound (length l) 64).
  destruct (Nat.lt_ge_cases (length l) 64); [rewrite H1 by lia; lia|].
  destruct (N.lt_ge_cases (N.of_nat (length l)) 8192).
  - specialize (H2 ltac:(lia)). assert (1 <= length l / 64) by (apply Nat.div_le_lower_bound; lia). lia.
  - assert (9 <= length l / 64) by (apply Nat.div_le_lower_bound; lia). lia.
Qed.

Lemma run_cost n v : (2 * N.of_nat n < u64_lim)%N -> 3 <= n ->
  length (frame_bytes (FRun (N.of_nat n) v)) + 1 <= n.
Proof.
  intros H Hn. cbn [frame_bytes]. rewrite app_length. cbn [length].
  destruct (varint_len_cases _ H) as [H1 H2]. pose proof (varint_bytes_length (2 * N.of_nat n)).
  destruct (Nat.lt_ge_cases n 64); [rewrite H1 by lia; lia|]. lia.
Qed.

(** ** Encoder invariant over appended bytes *)

(** What is still pending, by state. *)
Definition rle_pending (e : rle_enc) (pend : list N) : Prop :=
  match re_state e with
  | RInit => pend = [] /\ re_buffer e = []
  | RLiteral => pend = re_buffer e /\ exists pre, re_buffer e = pre ++ [re_last e]
  | RStartOfRun => pend = re_buffer e /\ re_repeat e = 2
      /\ exists pre, re_buffer e = pre ++ [re_last e; re_last e] /\ length pre = re_run_start e
  | RRun => re_buffer e = [] /\ pend = repeat (re_last e) (re_repeat e) /\ 3 <= re_repeat e
  end.

(** Bytes the output may exceed the expansion by. *)
Definition rle_slack (e : rle_enc) : nat := match re_state e with RRun => 1 | _ => 0 end.

Definition rle_inv (e : rle_enc) (bytes : list N) : Prop :=
  exists fs pend, bytes = exp_of fs ++ pend /\ re_out e = enc_of fs /\ rle_pending e pend
    /\ length (re_out e) <= length (exp_of fs) + length (exp_of fs) / 64 + rle_slack e
    /\ (re_state e = RInit -> fs = []).

Lemma rle_inv_new : rle_inv rle_new [].
Proof. exists [], []. repeat split; auto; simpl; lia. Qed.

Lemma emit_literal_ok e n : re_buffer e <> [] -> n <= length (re_buffer e) ->
  (2 * N.of_nat n + 1 < u64_lim)%N ->
  rle_emit_literal e n = Ret (set_out e (re_out e ++ frame_bytes (FBitmap (firstn n (re_buffer e))))).
Proof.
  intros HB Hn HL. unfold rle_emit_literal. destruct (re_buffer e) as [|b l] eqn:E; [congruence|].
  rewrite put_varint_ok by exact HL. rewrite bind_ret. rewrite slice_ok by lia. rewrite bind_ret.
  rewrite Nat.sub_0_r. cbn [skipn frame_bytes]. rewrite firstn_length. rewrite Nat.min_l by lia.
  rewrite <- app_assoc. reflexivity.
Qed.

Lemma emit_run_ok e n v : (2 * N.of_nat n < u64_lim)%N ->
  rle_emit_run e n v = Ret (set_out e (re_out e ++ frame_bytes (FRun (N.of_nat n) v))).
Proof.
  intros HL. unfold rle_emit_run. rewrite put_varint_ok by exact HL. rewrite bind_ret.
  cbn [frame_bytes]. rewrite <- app_assoc. reflexivity.
Qed.

Lemma div64_le a b : a <= b -> a / 64 <= b / 64.
Proof. intros H. apply Nat.div_le_mono; lia. Qed.
Lemma div64_add a b : a / 64 + b / 64 <= (a + b) / 64.
Proof.
  apply Nat.div_le_lower_bound; [lia|].
  pose proof (Nat.mul_div_le a 64). pose proof (Nat.mul_div_le b 64). lia.
Qed.

Ltac rc := cbn [set_out set_buffer set_run set_last set_bits rle_to_literal re_out re_byte re_bit_pos
  re_buffer re_repeat re_last re_run_start re_state bind].

Lemma rle_append_ok e bytes v :
  rle_inv e bytes -> (2 * N.of_nat (length bytes) + 3 < u64_lim)%N ->
  exists e', rle_append e v = Ret e' /\ rle_inv e' (bytes ++ [v])
    /\ re_byte e' = re_byte e /\ re_bit_pos e' = re_bit_pos e /\ re_state e' <> RInit.
Proof.
  intros (fs & pend & HB & HO & HP & HS & HI) HL. unfold rle_append.
  assert (HLen : length pend <= length bytes) by (rewrite HB, app_length; lia).
  unfold rle_pending, rle_slack in *.
  destruct (re_state e) eqn:ES.
  - (* Init *)
    destruct HP as [-> HBuf]. rewrite bind_ret. eexists; split; [reflexivity|].
    rc. rewrite HBuf. rc. split; [|repeat split; discriminate].
    exists fs, [v]. unfold rle_pending, rle_slack. rc. rewrite HB, app_nil_r.
    repeat split; auto; try discriminate. exists []; reflexivity.
  - (* Literal *)
    destruct HP as [-> [pre HBuf]].
    destruct (N.eqb_spec (re_last e) v) as [<-|Hne].
    + destruct (re_buffer e) as [|b0 bl] eqn:EB; [destruct pre; discriminate|]. rewrite <- EB in *.
      rewrite !bind_ret. eexists; split; [reflexivity|]. rc. split; [|repeat split; discriminate].
      exists fs, (re_buffer e ++ [re_last e]). unfold rle_pending, rle_slack. rc.
      rewrite HB, <- app_assoc. repeat split; auto; try discriminate.
      exists pre. rewrite HBuf. rewrite <- app_assoc. split; [reflexivity|]. rewrite app_length; simpl; lia.
    + rewrite !bind_ret. eexists; split; [reflexivity|]. rc. rewrite ES.
      split; [|repeat split; discriminate].
      exists fs, (re_buffer e ++ [v]). unfold rle_pending, rle_slack. rc. rewrite ES.
      rewrite HB, <- app_assoc. repeat split; auto; try discriminate. exists (re_buffer e). reflexivity.
  - (* StartOfRun *)
    destruct HP as (-> & HR & pre & HBuf & HPre). cbn [re_last set_buffer].
    destruct (N.eqb_spec (re_last e) v) as [<-|Hne]; cbn [negb].
    + cbn [set_run set_buffer re_out re_byte re_bit_pos re_buffer re_repeat re_last re_run_start re_state]. rewrite HR. change (2 + 1 =? MIN_RUN_LEN) with true. cbv iota.
      cbn [re_run_start].
      match goal with |- context [rle_emit_literal ?x _] => set (e1 := x) end.
      assert (HBl : length (re_buffer e) = length pre + 2) by (rewrite HBuf, app_length; simpl; lia).
      destruct (Nat.ltb_spec 0 (re_run_start e)) as [Hrs|Hrs].
      * rewrite (emit_literal_ok e1).
        2:{ subst e1. rc. destruct (re_buffer e); discriminate. }
        2:{ subst e1. rc. rewrite app_length. lia. }
        2:{ lia. }
        subst e1. rc. eexists; split; [reflexivity|]. rc. split; [|repeat split; discriminate].
        assert (EF : firstn (re_run_start e) (re_buffer e ++ [re_last e]) = pre).
        { rewrite HBuf, <- app_assoc. apply firstn_app_len. auto. }
        rewrite EF.
        exists (fs ++ [FBitmap pre]), (repeat (re_last e) 3). unfold rle_pending, rle_slack. rc.
        rewrite exp_of_app, enc_of_app. cbn [exp_of enc_of flat_map frame_exp].
        rewrite !app_nil_r. repeat split; auto; try lia; try discriminate.
        -- rewrite HB, HBuf. rewrite <- !app_assoc. reflexivity.
        -- rewrite HO. reflexivity.
        -- rewrite HO in HS |- *. rewrite !app_length. pose proof (literal_cost pre ltac:(lia)).
           pose proof (div64_add (length (exp_of fs)) (length pre)). lia.
      * assert (pre = []) as -> by (destruct pre; [reflexivity|simpl in HPre; lia]).
        rewrite !bind_ret. subst e1. rc. eexists; split; [reflexivity|]. rc. split; [|repeat split; discriminate].
        exists fs, (repeat (re_last e) 3). unfold rle_pending, rle_slack. rc.
        repeat split; auto; try lia; try discriminate.
        rewrite HB, HBuf. rewrite <- app_assoc. reflexivity.
    + rewrite !bind_ret. eexists; split; [reflexivity|]. rc. split; [|repeat split; discriminate].
      exists fs, (re_buffer e ++ [v]). unfold rle_pending, rle_slack. rc.
      rewrite HB, <- app_assoc. repeat split; auto; try discriminate. exists (re_buffer e). reflexivity.
  - (* Run *)
    destruct HP as (HBuf & -> & HR). rewrite repeat_length in HLen.
    destruct (N.eqb_spec (re_last e) v) as [<-|Hne]; cbn [negb].
    + rewrite !bind_ret. eexists; split; [reflexivity|]. rc. split; [|repeat split; discriminate].
      exists fs, (repeat (re_last e) (re_repeat e + 1)). unfold rle_pending, rle_slack. rc.
      rewrite HB, <- app_assoc. repeat split; auto; try lia; try discriminate.
      f_equal. symmetry. rewrite (repeat_app (re_last e) (re_repeat e) 1). reflexivity.
    + rewrite emit_run_ok by lia. rewrite !bind_ret. eexists; split; [reflexivity|]. rc.
      rewrite HBuf. split; [|repeat split; discriminate].
      exists (fs ++ [FRun (N.of_nat (re_repeat e)) (re_last e)]), [v]. unfold rle_pending, rle_slack.
      rc; cbn [app].
      rewrite exp_of_app, enc_of_app. cbn [exp_of enc_of flat_map frame_exp].
      rewrite !app_nil_r, Nat2N.id. repeat split; auto; try lia; try discriminate.
      * rewrite HB. reflexivity.
      * rewrite HO. reflexivity.
      * exists []; reflexivity.
      * rewrite HO in HS |- *. rewrite !app_length, repeat_length. pose proof (run_cost (re_repeat e) (re_last e) ltac:(lia) HR).
        pose proof (div64_le (length (exp_of fs)) (length (exp_of fs) + re_repeat e)). lia.
Qed.

(** ** Encoder over bits *)

Definition rle_bits (e : rle_enc) (bits : list bool) : Prop :=
  exists bytes cur, rle_inv e bytes /\ bits = bits_of_bytes bytes ++ cur
    /\ length cur = re_bit_pos e /\ re_bit_pos e < 8 /\ re_byte e = bits_value cur.

Lemma rle_bits_new : rle_bits rle_new [].
Proof. exists [], []. split; [apply rle_inv_new|]. repeat split; simpl; lia. Qed.

Lemma rle_inv_set_bits e byte pos bytes : rle_inv e bytes -> rle_inv (set_bits e byte pos) bytes.
Proof. intros H. exact H. Qed.

Lemma rle_put_ok e bits b : rle_bits e bits -> (2 * N.of_nat (length bits) + 3 < u64_lim)%N ->
  exists e', rle_put e b = Ret e' /\ rle_bits e' (bits ++ [b]).
Proof.
  intros (bytes & cur & HI & HB & HC & HP & HV) HL. unfold rle_put.
  assert (EB : (if b then let* mask := idx BIT_MASK (re_bit_pos e) in Ret (N.lor (re_byte e) mask)
                else Ret (re_byte e)) = Ret (bits_value (cur ++ [b]))).
  { destruct b.
    - rewrite BIT_MASK_nth by exact HP. rewrite bind_ret. f_equal. rewrite HV, <- HC. apply lor_top.
    - rewrite bits_value_snoc, N.add_0_r, HV. reflexivity. }
  rewrite EB, bind_ret.
  assert (HLb : length bytes <= length bits) by (rewrite HB, app_length, bits_of_bytes_length; lia).
  destruct (Nat.eqb_spec (re_bit_pos e + 1) 8) as [E8|E8].
  - destruct (rle_append_ok (set_bits e (bits_value (cur ++ [b])) 0) bytes (bits_value (cur ++ [b]))) as (e' & EA & HI' & H1 & H2 & _).
    + apply rle_inv_set_bits. exact HI.
    + lia.
    + rewrite EA, bind_ret. eexists; split; [reflexivity|].
      exists (bytes ++ [bits_value (cur ++ [b])]), []. split; [apply rle_inv_set_bits; exact HI'|].
      cbn [set_bits re_bit_pos re_byte] in *. rewrite H2. repeat split; try lia.
      rewrite bits_of_bytes_app, app_nil_r. rewrite HB, <- app_assoc. f_equal.
      unfold bits_of_bytes; cbn [flat_map]. rewrite app_nil_r.
      rewrite bits_of_value by (rewrite app_length; simpl; lia).
      rewrite app_length. cbn [length]. replace (8 - (length cur + 1)) with 0 by lia. cbn [repeat]. rewrite app_nil_r. reflexivity.
  - eexists; split; [reflexivity|]. exists bytes, (cur ++ [b]).
    split; [apply rle_inv_set_bits; exact HI|]. cbn [set_bits re_bit_pos re_byte].
    rewrite app_length. cbn [length]. repeat split; try lia.
    rewrite HB, <- app_assoc. reflexivity.
Qed.

(** Putting a list of bits one by one. *)
Lemma rle_puts_ok more : forall e bits, rle_bits e bits ->
  (2 * N.of_nat (length bits + length more) + 3 < u64_lim)%N ->
  exists e', rle_puts e more = Ret e' /\ rle_bits e' (bits ++ more).
Proof.
  induction more as [|b more IH]; intros e bits H HL.
  - exists e. rewrite app_nil_r. auto.
  - cbn [length] in HL. cbn [rle_puts].
    destruct (rle_put_ok e bits b H ltac:(lia)) as (e1 & E1 & H1). rewrite E1, bind_ret.
    destruct (IH e1 (bits ++ [b]) H1) as (e2 & E2 & H2).
    + rewrite app_length; cbn [length]; lia.
    + exists e2. split; [exact E2|]. rewrite <- app_assoc in H2. exact H2.
Qed.

(** Flushing: the output is a list of frames whose expansion is the bits,
    padded to whole bytes. *)
Lemma rle_flush_ok e bits : rle_bits e bits -> (2 * N.of_nat (length bits) + 3 < u64_lim)%N ->
  exists e' fs bytes k, rle_flush e = Ret e' /\ re_out e' = enc_of fs /\ exp_of fs = bytes
    /\ bits_of_bytes bytes = bits ++ repeat false k /\ k < 8
    /\ length (enc_of fs) <= length bytes + 1 + length bytes / 64.
Proof.
  intros (bytes & cur & HI & HB & HC & HP & HV) HL. unfold rle_flush.
  assert (HLb : length bytes <= length bits) by (rewrite HB, app_length, bits_of_bytes_length; lia).
  assert (X : exists e1 bytes1 k, (if 0 <? re_bit_pos e then rle_append e (re_byte e) else Ret e) = Ret e1
     /\ rle_inv e1 bytes1 /\ bits_of_bytes bytes1 = bits ++ repeat false k /\ k < 8 /\ length bytes1 <= length bits).
  { destruct (Nat.ltb_spec 0 (re_bit_pos e)) as [H0|H0].
    - destruct (rle_append_ok e bytes (re_byte e) HI) as (e1 & E1 & HI1 & _).
      + lia.
      + exists e1, (bytes ++ [re_byte e]), (8 - length cur). split; [exact E1|]. split; [exact HI1|].
        split; [|split; [lia|]].
        * rewrite bits_of_bytes_app, HB, <- app_assoc. f_equal. unfold bits_of_bytes; cbn [flat_map].
          rewrite app_nil_r, HV. apply bits_of_value. lia.
        * rewrite HB, !app_length, bits_of_bytes_length. cbn [length]. lia.
    - exists e, bytes, 0. cbn [repeat]. rewrite app_nil_r. repeat split; auto; [|lia].
      destruct cur; [|simpl in HC; lia]. rewrite app_nil_r in HB. auto. }
  destruct X as (e1 & bytes1 & k & E1 & HI1 & HB1 & Hk & HL1). rewrite E1, bind_ret.
  destruct HI1 as (fs & pend & Hb & HO & HPd & HS & HIn). unfold rle_pending, rle_slack in *.
  assert (Hpl : length pend <= length bytes1) by (rewrite Hb, app_length; lia).
  assert (Hfl : length (exp_of fs) + length pend = length bytes1) by (rewrite Hb, app_length; lia).
  destruct (re_state e1) eqn:ES.
  - destruct HPd as [-> HBuf]. rewrite (HIn eq_refl) in *. exists e1, [], bytes1, k.
    split; [reflexivity|]. split; [exact HO|]. split; [rewrite Hb, app_nil_r; reflexivity|].
    split; [exact HB1|]. split; [exact Hk|]. simpl; lia.
  - destruct HPd as [-> [pre HBuf]].
    rewrite emit_literal_ok; [|rewrite HBuf; destruct pre; discriminate|lia|lia].
    rewrite firstn_all. eexists; exists (fs ++ [FBitmap (re_buffer e1)]), bytes1, k.
    split; [reflexivity|]. cbn [set_out re_out]. rewrite enc_of_app, exp_of_app. cbn [enc_of exp_of flat_map frame_exp].
    rewrite !app_nil_r. split; [rewrite HO; reflexivity|]. split; [rewrite Hb; reflexivity|].
    split; [exact HB1|]. split; [exact Hk|].
    rewrite app_length. pose proof (literal_cost (re_buffer e1) ltac:(lia)).
      pose proof (div64_add (length (exp_of fs)) (length (re_buffer e1))) as HD. rewrite Hfl in HD. rewrite HO in HS. unfold enc_of in *. lia.
  - destruct HPd as (-> & HR & pre & HBuf & HPre).
    rewrite emit_literal_ok; [|rewrite HBuf; destruct pre; discriminate|lia|lia].
    rewrite firstn_all. eexists; exists (fs ++ [FBitmap (re_buffer e1)]), bytes1, k.
    split; [reflexivity|]. cbn [set_out re_out]. rewrite enc_of_app, exp_of_app. cbn [enc_of exp_of flat_map frame_exp].
    rewrite !app_nil_r. split; [rewrite HO; reflexivity|]. split; [rewrite Hb; reflexivity|].
    split; [exact HB1|]. split; [exact Hk|].
    rewrite app_length. pose proof (literal_cost (re_buffer e1) ltac:(lia)).
      pose proof (div64_add (length (exp_of fs)) (length (re_buffer e1))) as HD. rewrite Hfl in HD. rewrite HO in HS. unfold enc_of in *. lia.
  - destruct HPd as (HBuf & -> & HR). rewrite repeat_length in *.
    rewrite emit_run_ok by lia.
    eexists; exists (fs ++ [FRun (N.of_nat (re_repeat e1)) (re_last e1)]), bytes1, k.
    split; [reflexivity|]. cbn [set_out re_out]. rewrite enc_of_app, exp_of_app. cbn [enc_of exp_of flat_map frame_exp].
    rewrite !app_nil_r, Nat2N.id. split; [rewrite HO; reflexivity|]. split; [rewrite Hb; reflexivity|].
    split; [exact HB1|]. split; [exact Hk|].
    rewrite app_length. pose proof (run_cost (re_repeat e1) (re_last e1) ltac:(lia) HR).
      pose proof (div64_le (length (exp_of fs)) (length bytes1)). rewrite HO in HS. unfold enc_of in *. lia.
Qed.
