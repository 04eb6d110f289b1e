(** Properties C16-C22: the run-length coding of validity bitmaps
    (bitmap_rle.rs). *)
From Verif Require Import Base BaseProofs Spec Varint VarintProofs Buffers Observe BitmapProofs
  Rle RleProofs RleDecodeProofs RleTrackProofs.
Open Scope nat_scope.

Lemma encode_frames bits : (N.of_nat (length bits) <= 2 ^ 32)%N ->
  exists fs k, rle_encode rle_new bits = Ret (enc_of fs)
    /\ bits_of_bytes (exp_of fs) = bits ++ repeat false k /\ k < 8
    /\ length (enc_of fs) <= length (exp_of fs) + 1 + length (exp_of fs) / 64.
Proof.
  intros H. change (2 ^ 32)%N with 4294967296%N in H. unfold rle_encode.
  destruct (rle_puts_ok bits rle_new [] rle_bits_new) as (e1 & E1 & B1); [unfold u64_lim; cbn [length]; lia|].
  cbn [app] in B1. destruct (rle_flush_ok e1 bits B1) as (e2 & fs & bytes & k & E2 & O2 & X & HB & Hk & HL);
    [unfold u64_lim; lia|].
  exists fs, k. rewrite E1, bind_ret, E2, bind_ret, O2. subst bytes. auto.
Qed.

Lemma decode_encoding p bits enc dst : (N.of_nat (length bits) <= 2 ^ 32 - 8)%N ->
  rle_encode rle_new bits = Ret enc ->
  rle_decode p enc dst
  = if count_true bits <=? length dst
    then Ret (set_positions 0 bits ++ skipn (count_true bits) dst, count_true bits)
    else Panic PIndex.
Proof.
  intros H HE. change (2 ^ 32 - 8)%N with 4294967288%N in H.
  destruct (encode_frames bits) as (fs & k & E & HB & Hk & _); [change (2 ^ 32)%N with 4294967296%N; lia|].
  rewrite HE in E. injection E as ->. rewrite decode_frames_ok.
  - rewrite HB, positions_pad, count_pad. reflexivity.
  - pose proof (f_equal (@length bool) HB) as L. rewrite bits_of_bytes_length, app_length, repeat_length in L.
    unfold u32_lim. lia.
Qed.

(** C16.  Round trip: bits put into a fresh encoder and flushed decode to the
    increasing positions of the set bits, followed by what the destination held
    before, and their number. *)
Theorem C16_rle_round_trip :
  forall p bits dst, (N.of_nat (length bits) <= 2 ^ 32 - 8)%N -> count_true bits <= length dst ->
  exists enc, rle_encode rle_new bits = Ret enc
    /\ rle_decode p enc dst = Ret (set_positions 0 bits ++ skipn (count_true bits) dst, count_true bits).
Proof.
  intros p bits dst H HC.
  destruct (encode_frames bits) as (fs & k & E & _). { change (2 ^ 32 - 8)%N with 4294967288%N in H. change (2 ^ 32)%N with 4294967296%N. lia. }
  exists (enc_of fs). split; [exact E|]. rewrite (decode_encoding p bits (enc_of fs) dst H E).
  destruct (Nat.leb_spec (count_true bits) (length dst)); [reflexivity|lia].
Qed.
Print Assumptions C16_rle_round_trip.

(** Literals, a run of zeros, a run of ones and a partial byte. *)
Example C16_witness :
  let bits := [true; false; true] ++ repeat false 40 ++ repeat true 30 ++ [false; true] in
  rle_encode rle_new bits = Ret [3; 5; 8; 0; 3; 248; 6; 255; 3; 5]%N
  /\ match rle_decode Debug [3; 5; 8; 0; 3; 248; 6; 255; 3; 5]%N (repeat 9%N 40) with
     | Ret (dst, n) => n = 33 /\ firstn 4 dst = [0; 2; 43; 44]%N /\ skipn 32 dst = [74; 9; 9; 9; 9; 9; 9; 9]%N
     | _ => False end.
Proof. vm_compute. repeat split. Qed.

Lemma pack_length fuel : forall bits, length bits <= 8 * fuel -> length (pack fuel bits) = (length bits + 7) / 8.
Proof.
  induction fuel as [|fuel IH]; intros bits H.
  - destruct bits; [reflexivity|cbn [length] in H; lia].
  - destruct bits as [|b bits]; [reflexivity|].
    assert (E : length (pack (S fuel) (b :: bits)) = S (length (pack fuel (skipn 8 (b :: bits))))) by reflexivity.
    rewrite E. rewrite IH; rewrite skipn_length; [|lia].
    destruct (Nat.le_gt_cases 8 (length (b :: bits))) as [Hb|Hb].
    + replace (length (b :: bits) + 7) with (length (b :: bits) - 8 + 7 + 1 * 8) by lia. rewrite Nat.div_add by lia. lia.
    + replace (length (b :: bits) - 8) with 0 by lia. cbn [length] in *.
      apply (Nat.div_unique (S (length bits) + 7) 8 (S ((0 + 7) / 8)) (length bits)); [lia|]. change ((0 + 7) / 8) with 0. lia.
Qed.

Lemma packed_length bits : length (packed bits) = (length bits + 7) / 8.
Proof. apply pack_length. lia. Qed.

(** C17.  Size: at most one byte more than the packed bits plus one per 64 of
    them; and one header varint plus one value byte for a sequence of at least
    three equal packed bytes. *)
Theorem C17_rle_size :
  forall bits, (N.of_nat (length bits) <= 2 ^ 32)%N ->
  let n := length (packed bits) in
  exists enc, rle_encode rle_new bits = Ret enc /\ length enc <= n + 1 + n / 64
    /\ (forall v, packed bits = repeat v n -> 3 <= n ->
          exists header, enc = header ++ [v] /\ put_varint [] (2 * N.of_nat n) = Ret header).
Proof.
  intros bits H n.
  destruct (encode_frames bits H) as (fs & k & E & HB & Hk & HL).
  exists (enc_of fs). split; [exact E|].
  assert (HN : length (exp_of fs) = n).
  { unfold n. rewrite packed_length. pose proof (f_equal (@length bool) HB) as L.
    rewrite bits_of_bytes_length, app_length, repeat_length in L.
    apply (Nat.div_unique (length bits + 7) 8 (length (exp_of fs)) (7 - k)); lia. }
  rewrite HN in HL. split; [exact HL|].
  intros v HP H3. unfold rle_encode in E. change (2 ^ 32)%N with 4294967296%N in H.
  destruct (rle_puts_ok bits rle_new [] rle_bits_new) as (e1 & E1 & B1); [unfold u64_lim; cbn [length]; lia|].
  rewrite E1, bind_ret in E.
  pose proof (rle_encode_packed rle_new bits e1 eq_refl eq_refl E1) as P. unfold out_of in P. rewrite E in P.
  rewrite HP, rle_appends_equal, bind_ret in P by exact H3.
  assert (HB2 : (2 * N.of_nat n < u64_lim)%N).
  { assert (n <= length bits + 7) by (unfold n; rewrite packed_length; apply Nat.div_le_upper_bound; lia). unfold u64_lim. lia. }
  unfold rle_finish, rle_emit_run in P. cbn [re_state re_out re_last re_repeat] in P.
  destruct (put_varint [] (2 * N.of_nat n)) as [h| |] eqn:EV; [|discriminate P|discriminate P].
  exists h. cbn [bind set_out re_out] in P. injection P as ->. split; reflexivity.
Qed.
Print Assumptions C17_rle_size.

Example C17_witness :
  length (packed (repeat true 400)) = 50
  /\ rle_encode rle_new (repeat true 400) = Ret [100; 255]%N
  /\ packed [true; true; false; false; false; false; false; false; true] = [3; 1]%N
  /\ rle_encode rle_new [true; true; false; false; false; false; false; false; true] = Ret [5; 3; 1]%N.
Proof. vm_compute. repeat split. Qed.

(** C18.  An encoder in any state, once cleared, produces the same bytes as a
    new one for every sequence of bits. *)
Theorem C18_rle_clear :
  forall e bits, rle_encode (rle_clear e) bits = rle_encode rle_new bits.
Proof.
  intros e bits. unfold rle_encode.
  pose proof (like_puts bits (rle_clear e) rle_new (clear_like e)) as L.
  destruct (rle_puts (rle_clear e) bits), (rle_puts rle_new bits); cbn [like_outcome] in L; try contradiction; cbn [bind].
  - apply (like_flush _ _ L).
  - congruence.
  - reflexivity.
Qed.
Print Assumptions C18_rle_clear.

(** An encoder in the middle of a run and of a byte. *)
Example C18_witness :
  match rle_puts rle_new (repeat true 43) with
  | Ret e => re_state e = RRun /\ rle_clear e <> rle_new
             /\ rle_encode (rle_clear e) (repeat true 9) = Ret [5; 255; 1]%N
  | _ => False end.
Proof. vm_compute. repeat split. discriminate. Qed.

(** C19.  Taking a window of a bitmap equals putting its bits one by one and
    returns the position after it, from any encoder; when the bitmap has fewer
    set bits left there is no such window and the call panics. *)
Theorem C19_rle_put_from :
  (forall e src bits start n w, reads_as src bits -> valid_window bits start n w ->
     rle_put_from e src start n = let* e' := rle_puts e w in Ret (e', start + length w))
  /\ (forall bits start n, n <= count_true (skipn start bits) -> start <= length bits ->
        exists w, valid_window bits start n w /\ forall w', valid_window bits start n w' -> w' = w)
  /\ (forall e0 put src bits start n e, rle_puts (rle_clear e0) put = Ret e ->
        (N.of_nat (length put + length bits) <= 2 ^ 33)%N -> reads_as src bits ->
        count_true (skipn start bits) < n -> is_panic (rle_put_from e src start n)).
Proof.
  split; [|split].
  - intros. eapply put_from_puts; eauto.
  - intros bits start n H HS. destruct (window_exists bits start n HS H) as [w Hw].
    exists w. split; [exact Hw|]. intros w' Hw'. eapply window_unique; eauto.
  - intros e0 put src bits start n e HE HL HR HC. change (2 ^ 33)%N with 8589934592%N in HL.
    assert (B0 : rle_bits (rle_clear e0) []).
    { exists [], []. split; [exists [], []; repeat split; auto; simpl; lia|]. repeat split; simpl; lia. }
    destruct (rle_puts_ok put (rle_clear e0) [] B0) as (e1 & E1 & B1); [unfold u64_lim; cbn [length]; lia|].
    rewrite HE in E1. injection E1 as <-.
    eapply put_from_short; eauto. cbn [app]. unfold u64_lim. lia.
Qed.
Print Assumptions C19_rle_put_from.

Example C19_witness :
  match bm_appends bm_new [true; false; false; true; false; true; false] with
  | Ret src => valid_window [true; false; false; true; false; true; false] 1 2 [false; false; true; false; true]
      /\ match rle_put_from rle_new src 1 2 with
         | Ret (e, pos) => pos = 6 /\ rle_puts rle_new [false; false; true; false; true] = Ret e
         | _ => False end
      /\ rle_put_from rle_new src 1 3 = Panic PAssert
  | _ => False end.
Proof.
  remember (bm_appends _ _) as o eqn:E. vm_compute in E. subst o. split; [|vm_compute; repeat split].
  exists [true], [false]. repeat split. right. exists [false; false; true; false]. reflexivity.
Qed.

(** C20.  Decoding any byte string into any destination terminates, keeps the
    destination's length and its contents beyond the decoded part, and with
    overflow checks on the decoded positions are strictly increasing. *)
Theorem C20_rle_decode_any :
  forall p enc dst, bytes_ok enc ->
  match rle_decode p enc dst with
  | NoFuel => False
  | Panic _ => True
  | Ret (dst', n) =>
      length dst' = length dst /\ n <= length dst /\ skipn n dst' = skipn n dst
      /\ (p = Debug -> forall i j x y, i < j < n ->
            nth_error dst' i = Some x -> nth_error dst' j = Some y -> (x < y)%N)
  end.
Proof.
  intros p enc dst H. unfold rle_decode.
  pose proof (decode_loop_total p enc H (S (length enc)) (rdec_new dst)) as L.
  specialize (L ltac:(cbn [rdec_new rd_epos]; lia)).
  destruct (rle_decode_loop p (S (length enc)) enc (rdec_new dst)) as [d| |]; [|exact I|exact L].
  cbn [bind forget_epos step_ok at_epos rd_dst rd_dpos rd_epos rd_bpos rdec_new] in *.
  destruct L as (L1 & _ & _ & L4 & _ & L6 & L7).
  split; [exact L1|]. split; [specialize (L4 ltac:(lia)); lia|]. split; [exact L6|].
  intros Hp i j x y Hij Hi Hj. destruct (L7 Hp) as [_ L8].
  destruct (L8 j ltac:(lia)) as (y' & Ey & _ & L9). rewrite Hj in Ey. injection Ey as <-. apply (L9 i x); [lia|exact Hi].
Qed.
Print Assumptions C20_rle_decode_any.

Example C20_witness :
  rle_decode Debug [4; 0; 3; 9; 2; 129]%N (repeat 7%N 6) = Ret ([16; 19; 24; 31; 7; 7]%N, 4)
  /\ rle_decode Debug [9; 1]%N [] = Panic PIndex
  /\ rle_decode Debug [128]%N [] = Panic PIndex.
Proof. vm_compute. repeat split. Qed.

(** Without overflow checks the position wraps and the result need not be
    increasing: runs of zeros up to the last byte, then bits on both sides of
    the wrap. *)
Example C20_release_wraps :
  rle_decode Release [254; 255; 255; 255; 3; 0; 5; 128; 1]%N [7; 7]%N = Ret ([4294967295; 0]%N, 2)
  /\ rle_decode Debug [254; 255; 255; 255; 3; 0; 5; 128; 1]%N [7; 7]%N = Panic POverflow.
Proof. vm_compute. repeat split. Qed.

(** C21.  Decoding an encoding panics exactly when the destination has fewer
    slots than there are set bits. *)
Theorem C21_rle_small_destination :
  forall p bits dst enc, (N.of_nat (length bits) <= 2 ^ 32 - 8)%N -> rle_encode rle_new bits = Ret enc ->
  (length dst < count_true bits <-> is_panic (rle_decode p enc dst))
  /\ forall dst' n, rle_decode p enc dst = Ret (dst', n) -> n = count_true bits.
Proof.
  intros p bits dst enc H HE. rewrite (decode_encoding p bits enc dst H HE).
  destruct (Nat.leb_spec (count_true bits) (length dst)) as [Hc|Hc]; split.
  - split; [lia|]. intros [k Hk]. discriminate.
  - intros dst' n Hd. congruence.
  - split; [|auto]. intros _. eexists; reflexivity.
  - discriminate.
Qed.
Print Assumptions C21_rle_small_destination.

Example C21_witness :
  match rle_encode rle_new (repeat true 24) with
  | Ret enc => is_panic (rle_decode Release enc (repeat 0%N 23)) /\ is_ret (rle_decode Release enc (repeat 0%N 24))
  | _ => False end.
Proof. vm_compute. split; eexists; reflexivity. Qed.

(** C22.  Flushing twice.  The property is false: the second flush writes the
    pending data again. *)
Theorem C22_rle_flush_twice_refuted :
  ~ (forall bits e e1 e2, (N.of_nat (length bits) <= 2 ^ 32)%N -> rle_puts rle_new bits = Ret e ->
       rle_flush e = Ret e1 -> rle_flush e1 = Ret e2 -> re_out e2 = re_out e1).
Proof.
  intros H. specialize (H [true; false; true]). cbn [rle_puts] in H.
  eassert (E := H _ _ _ _ eq_refl eq_refl eq_refl). vm_compute in E. discriminate E.
  Unshelve. vm_compute. discriminate.
Qed.
Print Assumptions C22_rle_flush_twice_refuted.

(** It is false for every non-empty sequence: the second flush always adds
    bytes.  Only an encoder that was given nothing is unaffected. *)
Theorem C22_rle_flush_twice_exact :
  forall bits e, (N.of_nat (length bits) <= 2 ^ 32)%N -> rle_puts rle_new bits = Ret e ->
  exists e1 e2 extra, rle_flush e = Ret e1 /\ rle_flush e1 = Ret e2 /\ re_out e2 = re_out e1 ++ extra
    /\ (extra = [] <-> bits = []).
Proof.
  intros bits e H HE. change (2 ^ 32)%N with 4294967296%N in H.
  destruct bits as [|b bits].
  - cbn [rle_puts] in HE. injection HE as <-. exists rle_new, rle_new, []. repeat split.
  - destruct (rle_puts_ok (b :: bits) rle_new [] rle_bits_new) as (e0 & E0 & B0); [unfold u64_lim; cbn [length] in *; lia|].
    rewrite HE in E0. injection E0 as <-. cbn [app] in B0.
    destruct (bits_live e (b :: bits) B0) as (e1 & E1 & L1); [discriminate|unfold u64_lim; lia|].
    destruct (flush_live _ e1 L1) as (e2 & x & E2 & O2 & N2 & _); [unfold u64_lim; lia|lia|].
    exists e1, e2, x. repeat split; auto; intros K; [contradiction|discriminate].
Qed.
Print Assumptions C22_rle_flush_twice_exact.

Example C22_witness :
  match rle_puts rle_new [true; false; true] with
  | Ret e => match rle_flush e with
             | Ret e1 => re_out e1 = [3; 5]%N /\ match rle_flush e1 with Ret e2 => re_out e2 = [3; 5; 5; 5; 5]%N | _ => False end
             | _ => False end
  | _ => False end.
Proof. vm_compute. repeat split. Qed.
