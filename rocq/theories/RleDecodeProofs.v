From Verif Require Import Base BaseProofs Spec Varint VarintProofs VarintDecodeProofs Buffers Observe BitmapProofs Rle RleProofs.
Open Scope nat_scope.
Arguments N.add : simpl never.
Arguments N.mul : simpl never.
Arguments N.of_nat : simpl never.

(** ** Storing the positions of some bits *)

Definition place (d : rle_dec) (bits : list bool) : outcome rle_dec :=
  if rd_dpos d + count_true bits <=? length (rd_dst d) then
    Ret (mk_rdec (firstn (rd_dpos d) (rd_dst d) ++ set_positions (rd_bpos d) bits
                    ++ skipn (rd_dpos d + count_true bits) (rd_dst d))
                 (rd_epos d) (rd_dpos d + count_true bits) (rd_bpos d + N.of_nat (length bits))%N)
  else Panic PIndex.

Lemma set_positions_length bits : forall from, length (set_positions from bits) = count_true bits.
Proof.
  induction bits as [|[|] bits IH]; intros from; [reflexivity| |]; rewrite count_true_cons; simpl; rewrite IH; reflexivity.
Qed.

Lemma set_positions_app a : forall from b,
  set_positions from (a ++ b) = set_positions from a ++ set_positions (from + N.of_nat (length a)) b.
Proof.
  induction a as [|x a IH]; intros from b.
  - cbn [app length set_positions]. rewrite N.add_0_r. reflexivity.
  - cbn [app length]. rewrite Nat2N.inj_succ.
    replace (from + N.succ (N.of_nat (length a)))%N with (from + 1 + N.of_nat (length a))%N by lia.
    destruct x; cbn [set_positions]; rewrite IH; reflexivity.
Qed.

Lemma place_ok d bits d' : place d bits = Ret d' ->
  rd_dpos d' <= length (rd_dst d') /\ length (rd_dst d') = length (rd_dst d)
  /\ rd_bpos d' = (rd_bpos d + N.of_nat (length bits))%N /\ rd_epos d' = rd_epos d.
Proof.
  unfold place. destruct (Nat.leb_spec (rd_dpos d + count_true bits) (length (rd_dst d))) as [H|H]; [|discriminate].
  intros E. injection E as <-. cbn. rewrite !app_length, firstn_length, skipn_length, set_positions_length. lia.
Qed.

Lemma place_nil d : rd_dpos d <= length (rd_dst d) -> place d [] = Ret d.
Proof.
  intros H. unfold place. change (count_true []) with 0. rewrite Nat.add_0_r.
  destruct (Nat.leb_spec (rd_dpos d) (length (rd_dst d))); [|lia].
  cbn [set_positions app length]. rewrite firstn_skipn. change (N.of_nat 0) with 0%N. rewrite N.add_0_r.
  destruct d; reflexivity.
Qed.

Lemma place_app d a b : rd_dpos d <= length (rd_dst d) ->
  place d (a ++ b) = let* d := place d a in place d b.
Proof.
  intros HD. unfold place at 1 2. rewrite count_true_app.
  destruct (Nat.leb_spec (rd_dpos d + count_true a) (length (rd_dst d))) as [H|H].
  - rewrite bind_ret. unfold place. cbn [rd_dpos rd_dst rd_bpos rd_epos].
    assert (E : length (firstn (rd_dpos d) (rd_dst d) ++ set_positions (rd_bpos d) a ++
                  skipn (rd_dpos d + count_true a) (rd_dst d)) = length (rd_dst d)).
    { rewrite !app_length, firstn_length, skipn_length, set_positions_length. lia. }
    rewrite E, Nat.add_assoc.
    destruct (Nat.leb_spec (rd_dpos d + count_true a + count_true b) (length (rd_dst d))); [|reflexivity].
    f_equal. f_equal.
    + rewrite set_positions_app. rewrite !(app_assoc (firstn (rd_dpos d) (rd_dst d)) (set_positions (rd_bpos d) a)).
      assert (L : length (firstn (rd_dpos d) (rd_dst d) ++ set_positions (rd_bpos d) a) = rd_dpos d + count_true a).
      { rewrite app_length, firstn_length, set_positions_length. lia. }
      rewrite <- !(app_assoc (set_positions (rd_bpos d) a)).
      rewrite !(app_assoc (firstn (rd_dpos d) (rd_dst d)) (set_positions (rd_bpos d) a)).
      set (P := firstn (rd_dpos d) (rd_dst d) ++ set_positions (rd_bpos d) a) in *.
      rewrite (firstn_app_len P) by auto.
      rewrite <- (skipn_skipn_add (P ++ _) (count_true b)). rewrite (skipn_app_len P) by auto.
      rewrite skipn_skipn_add. reflexivity.
    + rewrite app_length. lia.
  - destruct (Nat.leb_spec (rd_dpos d + (count_true a + count_true b)) (length (rd_dst d))); [lia|reflexivity].
Qed.

Lemma place_false d : rd_dpos d <= length (rd_dst d) ->
  place d [false] = Ret (mk_rdec (rd_dst d) (rd_epos d) (rd_dpos d) (rd_bpos d + 1)).
Proof.
  intros H. unfold place. change (count_true [false]) with 0. rewrite Nat.add_0_r.
  destruct (Nat.leb_spec (rd_dpos d) (length (rd_dst d))); [|lia].
  cbn [set_positions app length]. rewrite firstn_skipn. reflexivity.
Qed.

Lemma place_true d : rd_dpos d <= length (rd_dst d) ->
  place d [true] = let* d := rle_store d in Ret (mk_rdec (rd_dst d) (rd_epos d) (rd_dpos d) (rd_bpos d + 1)).
Proof.
  intros H. unfold place. change (count_true [true]) with 1. unfold rle_store, upd.
  destruct (Nat.ltb_spec (rd_dpos d) (length (rd_dst d))) as [Hl|Hl];
    destruct (Nat.leb_spec (rd_dpos d + 1) (length (rd_dst d))); try lia; [|reflexivity].
  rewrite !bind_ret. cbn [rd_dst rd_epos rd_dpos rd_bpos]. cbn [set_positions length app].
  rewrite set_nth_split by exact Hl. rewrite Nat.add_1_r. reflexivity.
Qed.

Lemma bump_ok p d n : (rd_bpos d + n < u32_lim)%N ->
  rle_bump p d n = Ret (mk_rdec (rd_dst d) (rd_epos d) (rd_dpos d) (rd_bpos d + n)).
Proof. intros H. unfold rle_bump. rewrite add32_ok by exact H. reflexivity. Qed.

Lemma store_pos d d' : rle_store d = Ret d' -> rd_dpos d' <= length (rd_dst d') /\ rd_bpos d' = rd_bpos d.
Proof.
  unfold rle_store, upd. destruct (Nat.ltb_spec (rd_dpos d) (length (rd_dst d))); [|discriminate].
  intros E. injection E as <-. cbn. rewrite set_nth_length. lia.
Qed.

Lemma decode_bit p d (b : bool) : rd_dpos d <= length (rd_dst d) -> (rd_bpos d + 1 < u32_lim)%N ->
  (let* d := (if b then rle_store d else Ret d) in rle_bump p d 1) = place d [b].
Proof.
  intros H HB. destruct b.
  - rewrite place_true by exact H. destruct (rle_store d) as [d1| |] eqn:E; [|reflexivity|reflexivity].
    rewrite !bind_ret. apply bump_ok. rewrite (proj2 (store_pos _ _ E)). exact HB.
  - rewrite bind_ret, place_false by exact H. apply bump_ok. exact HB.
Qed.

Lemma decode_masks_ok p byte n : forall k d, k + n = 8 -> rd_dpos d <= length (rd_dst d) ->
  (rd_bpos d + N.of_nat n < u32_lim)%N ->
  rle_decode_masks p (skipn k BIT_MASK) byte d
  = place d (map (fun i => N.testbit byte (N.of_nat i)) (seq k n)).
Proof.
  induction n as [|n IH]; intros k d Hk HD HB.
  - assert (k = 8) by lia. subst k. cbn [skipn BIT_MASK rle_decode_masks seq map]. rewrite place_nil by exact HD. reflexivity.
  - assert (ES : skipn k BIT_MASK = (2 ^ N.of_nat k)%N :: skipn (S k) BIT_MASK).
    { assert (k < 8) by lia. clear - H. do 8 (destruct k as [|k]; [reflexivity|]). lia. }
    rewrite ES. cbn [rle_decode_masks seq map].
    rewrite <- bind_assoc. rewrite land_pow2.
    rewrite decode_bit by (try exact HD; lia).
    match goal with |- _ = place d (?x :: ?l) => change (x :: l) with ([x] ++ l) end.
    rewrite place_app by exact HD.
    destruct (place d [N.testbit byte (N.of_nat k)]) as [d1| |] eqn:E; try reflexivity.
    rewrite !bind_ret. destruct (place_ok _ _ _ E) as (H1 & _ & H3 & _).
    apply IH; try lia. rewrite H3. cbn [length]. lia.
Qed.

Lemma decode_byte_ok p byte d : rd_dpos d <= length (rd_dst d) -> (rd_bpos d + 8 < u32_lim)%N ->
  rle_decode_byte p byte d = place d (bits_of_byte byte).
Proof. intros H1 H2. exact (decode_masks_ok p byte 8 0 d eq_refl H1 H2). Qed.

Lemma decode_bitmap_ok p bytes : forall d, rd_dpos d <= length (rd_dst d) ->
  (rd_bpos d + 8 * N.of_nat (length bytes) < u32_lim)%N ->
  rle_decode_bitmap p bytes d = place d (bits_of_bytes bytes).
Proof.
  induction bytes as [|b bytes IH]; intros d H1 H2.
  - cbn. rewrite place_nil by exact H1. reflexivity.
  - cbn [length] in H2. change (bits_of_bytes (b :: bytes)) with (bits_of_byte b ++ bits_of_bytes bytes).
    rewrite place_app by exact H1. cbn [rle_decode_bitmap]. rewrite decode_byte_ok by (try exact H1; lia).
    destruct (place d (bits_of_byte b)) as [d1| |] eqn:E; try reflexivity. rewrite !bind_ret.
    destruct (place_ok _ _ _ E) as (H3 & _ & H5 & _). apply IH; [exact H3|].
    rewrite H5, bits_of_byte_length. lia.
Qed.

Lemma decode_repeat_ok p v n : forall d, rd_dpos d <= length (rd_dst d) ->
  (rd_bpos d + 8 * N.of_nat n < u32_lim)%N ->
  rle_decode_repeat p n v d = place d (bits_of_bytes (repeat v n)).
Proof.
  intros d H1 H2. rewrite <- (decode_bitmap_ok p) by (rewrite ?repeat_length; assumption).
  clear H1 H2. revert d. induction n as [|n IH]; intros d; [reflexivity|].
  cbn [rle_decode_repeat repeat rle_decode_bitmap]. apply bind_ext. intros d1. apply IH.
Qed.

Lemma decode_ones_ok p n : forall d, rd_dpos d <= length (rd_dst d) ->
  (rd_bpos d + N.of_nat n < u32_lim)%N -> rle_decode_ones p n d = place d (repeat true n).
Proof.
  induction n as [|n IH]; intros d H1 H2.
  - cbn. rewrite place_nil by exact H1. reflexivity.
  - cbn [rle_decode_ones repeat]. change (true :: repeat true n) with ([true] ++ repeat true n).
    rewrite place_app by exact H1. rewrite <- (decode_bit p d true H1) by lia.
    rewrite <- bind_assoc.
    destruct (let* d0 := rle_store d in rle_bump p d0 1) as [d1| |] eqn:E; try reflexivity.
    rewrite !bind_ret. rewrite (decode_bit p d true H1) in E by lia.
    destruct (place_ok _ _ _ E) as (H3 & _ & H5 & _). apply IH; [exact H3|].
    rewrite H5. cbn [length]. lia.
Qed.

Lemma place_zeros d n : rd_dpos d <= length (rd_dst d) ->
  place d (repeat false n) = Ret (mk_rdec (rd_dst d) (rd_epos d) (rd_dpos d) (rd_bpos d + N.of_nat n)).
Proof.
  intros H. unfold place.
  assert (C : count_true (repeat false n) = 0) by (induction n; [reflexivity|cbn [repeat]; rewrite count_true_cons; auto]).
  assert (P : forall from, set_positions from (repeat false n) = []) by (clear C; induction n; intros from; simpl; auto).
  rewrite C, P, Nat.add_0_r, repeat_length. destruct (Nat.leb_spec (rd_dpos d) (length (rd_dst d))); [|lia].
  cbn [app]. rewrite firstn_skipn. reflexivity.
Qed.

Lemma bits_of_repeat v n b : bits_of_byte v = repeat b 8 -> bits_of_bytes (repeat v n) = repeat b (8 * n).
Proof.
  intros H. induction n as [|n IH]; [reflexivity|].
  cbn [repeat]. change (bits_of_bytes (v :: repeat v n)) with (bits_of_byte v ++ bits_of_bytes (repeat v n)).
  rewrite IH, H, <- repeat_app. f_equal. lia.
Qed.

Lemma decode_run_ok p len v d : rd_dpos d <= length (rd_dst d) ->
  (rd_bpos d + 8 * len < u32_lim)%N ->
  rle_decode_run p len v d = place d (bits_of_bytes (repeat v (N.to_nat len))).
Proof.
  intros H1 H2. unfold rle_decode_run.
  assert (S8 : shl32 len 3 = (8 * len)%N).
  { rewrite shl32_ok; change (2 ^ 3)%N with 8%N; [|]; unfold u32_lim in *; lia. }
  rewrite S8. destruct (N.eqb_spec v 0x00) as [->|H0].
  - rewrite (bits_of_repeat 0%N _ false) by reflexivity. rewrite place_zeros by exact H1.
    rewrite bump_ok by exact H2. do 2 f_equal. lia.
  - destruct (N.eqb_spec v 0xFF) as [->|HF].
    + rewrite (bits_of_repeat 255%N _ true) by reflexivity.
      replace (N.to_nat (8 * len)) with (8 * N.to_nat len) by lia. apply decode_ones_ok; [exact H1|]. lia.
    + apply decode_repeat_ok; [exact H1|]. lia.
Qed.

(** ** Reading frames *)

Lemma read_frame_ok p pre f rest d :
  rd_epos d = length pre -> (8 * N.of_nat (length (frame_exp f)) < u32_lim)%N ->
  rle_read_frame p (pre ++ frame_bytes f ++ rest) d
  = Ret (mk_rdec (rd_dst d) (length pre + length (frame_bytes f)) (rd_dpos d) (rd_bpos d), f).
Proof.
  intros HE HL. unfold rle_read_frame, slice_from. rewrite HE, app_length.
  destruct (Nat.leb_spec (length pre) (length pre + length (frame_bytes f ++ rest))); [|lia].
  rewrite bind_ret. rewrite skipn_app_exact.
  destruct f as [len v|l]; cbn [frame_bytes frame_exp] in *.
  - rewrite repeat_length in HL. assert (HL' : (8 * len < u32_lim)%N) by lia.
    rewrite <- app_assoc. rewrite decode_varint_bytes by (unfold u32_lim, u64_lim in *; lia). rewrite bind_ret.
    rewrite N.shiftr_div_pow2. change (2 ^ 1)%N with 2%N.
    replace (2 * len / 2)%N with len by (symmetry; rewrite N.mul_comm; apply N.div_mul; lia).
    destruct (N.leb_spec len u32_max); [|unfold u32_max, u32_lim in *; lia].
    rewrite N.odd_mul. change (N.odd 2) with false. cbn [andb].
    unfold idx. rewrite nth_error_app2 by lia.
    replace (length pre + length (varint_bytes (2 * len)) - length pre) with (length (varint_bytes (2 * len)) + 0) by lia.
    rewrite nth_error_app2 by lia. rewrite Nat.add_0_r, Nat.sub_diag. cbn [app nth_error]. rewrite bind_ret.
    rewrite app_length. cbn [length]. do 3 f_equal. lia.
  - rewrite <- app_assoc. rewrite decode_varint_bytes by (unfold u32_lim, u64_lim in *; lia). rewrite bind_ret.
    rewrite N.shiftr_div_pow2. change (2 ^ 1)%N with 2%N.
    replace ((2 * N.of_nat (length l) + 1) / 2)%N with (N.of_nat (length l))
      by (symmetry; rewrite N.add_comm, N.mul_comm, N.div_add by lia; reflexivity).
    destruct (N.leb_spec (N.of_nat (length l)) u32_max); [|unfold u32_max, u32_lim in *; lia].
    rewrite N.odd_add, N.odd_mul. change (N.odd 2) with false. change (N.odd 1) with true. cbn [andb xorb].
    set (h := varint_bytes _).
    rewrite Nat2N.id. rewrite slice_ok.
    2:{ lia. } 2:{ rewrite !app_length. lia. }
    rewrite bind_ret.
    replace (length pre + length h + length l - (length pre + length h)) with (length l) by lia.
    rewrite app_assoc. rewrite skipn_app_len by (rewrite app_length; reflexivity).
    rewrite firstn_app_exact. rewrite !app_length. do 3 f_equal. lia.
Qed.

Lemma frame_bytes_pos f : 1 <= length (frame_bytes f).
Proof.
  destruct f as [len v|l]; cbn [frame_bytes]; rewrite app_length.
  - pose proof (varint_bytes_length (2 * len)). lia.
  - pose proof (varint_bytes_length (2 * N.of_nat (length l) + 1)). lia.
Qed.

Lemma decode_loop_ok p fs : forall pre d fuel,
  rd_epos d = length pre -> rd_dpos d <= length (rd_dst d) -> length fs < fuel ->
  (rd_bpos d + 8 * N.of_nat (length (exp_of fs)) < u32_lim)%N ->
  rle_decode_loop p fuel (pre ++ enc_of fs) d
  = let* d' := place d (bits_of_bytes (exp_of fs)) in
    Ret (mk_rdec (rd_dst d') (length pre + length (enc_of fs)) (rd_dpos d') (rd_bpos d')).
Proof.
  induction fs as [|f fs IH]; intros pre d fuel HE HD HF HB.
  - destruct fuel as [|fuel]; [simpl in HF; lia|].
    cbn [enc_of exp_of flat_map bits_of_bytes]. rewrite place_nil by exact HD. rewrite bind_ret, app_nil_r.
    cbn [rle_decode_loop length]. rewrite HE, Nat.ltb_irrefl, Nat.add_0_r, <- HE. destruct d; reflexivity.
  - destruct fuel as [|fuel]; [simpl in HF; lia|]. cbn [length] in HF.
    change (enc_of (f :: fs)) with (frame_bytes f ++ enc_of fs).
    change (exp_of (f :: fs)) with (frame_exp f ++ exp_of fs) in HB |- *.
    rewrite app_length in HB. cbn [rle_decode_loop].
    pose proof (frame_bytes_pos f).
    destruct (Nat.ltb_spec (rd_epos d) (length (pre ++ frame_bytes f ++ enc_of fs))) as [_|X];
      [|rewrite !app_length in X; lia].
    rewrite read_frame_ok by (try exact HE; unfold u32_lim in *; lia). rewrite bind_ret. cbn [fst snd].
    rewrite bits_of_bytes_app. rewrite place_app by exact HD. rewrite bind_assoc.
    set (d0 := mk_rdec (rd_dst d) (length pre + length (frame_bytes f)) (rd_dpos d) (rd_bpos d)).
    assert (EQ : (match f with FRun len value => rle_decode_run p len value d0
                  | FBitmap bytes => rle_decode_bitmap p bytes d0 end) = place d0 (bits_of_bytes (frame_exp f))).
    { destruct f as [len v|l]; cbn [frame_exp] in *.
      - rewrite repeat_length in HB. apply decode_run_ok; [exact HD|]. cbn. unfold u32_lim in *. lia.
      - apply decode_bitmap_ok; [exact HD|]. cbn. lia. }
    rewrite EQ.
    assert (EP : place d0 (bits_of_bytes (frame_exp f))
      = let* d1 := place d (bits_of_bytes (frame_exp f)) in
        Ret (mk_rdec (rd_dst d1) (length pre + length (frame_bytes f)) (rd_dpos d1) (rd_bpos d1))).
    { unfold place. subst d0. cbn [rd_dst rd_epos rd_dpos rd_bpos].
      destruct (_ <=? _); reflexivity. }
    rewrite EP, bind_assoc.
    destruct (place d (bits_of_bytes (frame_exp f))) as [d1| |] eqn:E1; try reflexivity.
    rewrite !bind_ret. destruct (place_ok _ _ _ E1) as (P1 & P2 & P3 & P4).
    replace (pre ++ frame_bytes f ++ enc_of fs) with ((pre ++ frame_bytes f) ++ enc_of fs) by (rewrite app_assoc; reflexivity).
    rewrite IH; cbn [rd_epos rd_dpos rd_dst rd_bpos].
    + set (dd := mk_rdec (rd_dst d1) (length pre + length (frame_bytes f)) (rd_dpos d1) (rd_bpos d1)).
      unfold place. subst dd. cbn [rd_dst rd_epos rd_dpos rd_bpos].
      destruct (_ <=? _); [|reflexivity]. rewrite !bind_ret. cbn [rd_dst rd_dpos rd_bpos].
      rewrite !app_length. do 2 f_equal. lia.
    + rewrite app_length. reflexivity.
    + exact P1.
    + lia.
    + rewrite P3, bits_of_bytes_length. lia.
Qed.

Lemma enc_of_length fs : length fs <= length (enc_of fs).
Proof.
  induction fs as [|f fs IH]; [reflexivity|]. change (enc_of (f :: fs)) with (frame_bytes f ++ enc_of fs).
  rewrite app_length. pose proof (frame_bytes_pos f). cbn [length]. lia.
Qed.

Lemma decode_frames_ok p fs dst :
  (8 * N.of_nat (length (exp_of fs)) < u32_lim)%N ->
  let bits := bits_of_bytes (exp_of fs) in
  rle_decode p (enc_of fs) dst
  = if count_true bits <=? length dst
    then Ret (set_positions 0 bits ++ skipn (count_true bits) dst, count_true bits)
    else Panic PIndex.
Proof.
  intros H bits. unfold rle_decode.
  pose proof (decode_loop_ok p fs [] (rdec_new dst) (S (length (enc_of fs))) eq_refl) as L.
  cbn [app rdec_new rd_dpos rd_bpos rd_dst] in L. rewrite L.
  - subst bits. unfold place. cbn [rdec_new rd_dpos rd_bpos rd_dst firstn app Nat.add].
    destruct (_ <=? _); reflexivity.
  - lia.
  - pose proof (enc_of_length fs). lia.
  - exact H.
Qed.

(** The padding of the last byte adds no position. *)
Lemma positions_pad bits k : set_positions 0 (bits ++ repeat false k) = set_positions 0 bits.
Proof.
  rewrite set_positions_app.
  assert (P : forall from, set_positions from (repeat false k) = []) by (induction k; intros from; simpl; auto).
  rewrite P, app_nil_r. reflexivity.
Qed.

Lemma count_pad bits k : count_true (bits ++ repeat false k) = count_true bits.
Proof.
  rewrite count_true_app. assert (C : count_true (repeat false k) = 0)
    by (induction k; [reflexivity|cbn [repeat]; rewrite count_true_cons; auto]). lia.
Qed.

(** ** Decoding arbitrary bytes *)

Lemma decode_varint_total p bs : bytes_ok bs ->
  (exists v n, decode_varint p bs = Ret (Ok (v, n)) /\ 1 <= n <= length bs) \/ decode_varint p bs = Ret Err
  \/ is_panic (decode_varint p bs).
Proof.
  intros Hok. destruct (varint_cases bs) as [(pre & b & rest & -> & H1 & H2 & H3)|[(pre & rest & -> & H1 & H2)|[H1 H2]]].
  - left. pose proof (decode_stop p pre b rest) as D.
    apply bytes_ok_app in Hok. destruct Hok as [Hok1 _].
    rewrite D by auto. eexists _, _. split; [reflexivity|]. rewrite app_length. cbn [length]. lia.
  - right; left. apply bytes_ok_app in Hok. destruct Hok as [Hok1 _]. rewrite decode_overrun by auto. reflexivity.
  - right; right. rewrite decode_truncated by auto. eexists; reflexivity.
Qed.

(** Two outcomes of decoding steps: no [NoFuel], and the invariant is kept. *)
Definition step_ok (p : profile) (d : rle_dec) (o : outcome rle_dec) : Prop :=
  match o with
  | NoFuel => False
  | Panic _ => True
  | Ret d' =>
      length (rd_dst d') = length (rd_dst d) /\ rd_dpos d <= rd_dpos d' /\ rd_epos d' = rd_epos d
      /\ (rd_dpos d <= length (rd_dst d) -> rd_dpos d' <= length (rd_dst d'))
      /\ firstn (rd_dpos d) (rd_dst d') = firstn (rd_dpos d) (rd_dst d)
      /\ skipn (rd_dpos d') (rd_dst d') = skipn (rd_dpos d') (rd_dst d)
      /\ (p = Debug -> (rd_bpos d <= rd_bpos d')%N
            /\ forall i, rd_dpos d <= i < rd_dpos d' ->
                 exists x, nth_error (rd_dst d') i = Some x /\ (rd_bpos d <= x < rd_bpos d')%N
                   /\ forall j y, rd_dpos d <= j < i -> nth_error (rd_dst d') j = Some y -> (y < x)%N)
  end.

Lemma step_ok_refl p d : step_ok p d (Ret d).
Proof. cbn. repeat split; auto; intros; lia. Qed.

Lemma firstn_le_eq {A} (a b : list A) n m : n <= m -> firstn m a = firstn m b -> firstn n a = firstn n b.
Proof.
  intros H E. rewrite <- (firstn_firstn a n m) || idtac.
  assert (forall l : list A, firstn n l = firstn n (firstn m l)) as F.
  { intros l. rewrite firstn_firstn. rewrite Nat.min_l by exact H. reflexivity. }
  rewrite (F a), (F b), E. reflexivity.
Qed.

Lemma skipn_le_eq {A} (a b : list A) n m : n <= m -> skipn n a = skipn n b -> skipn m a = skipn m b.
Proof.
  intros H E. replace m with (n + (m - n)) by lia. rewrite <- !skipn_skipn_add. rewrite E. reflexivity.
Qed.

Lemma step_ok_trans p d d1 o : step_ok p d (Ret d1) -> step_ok p d1 o -> step_ok p d o.
Proof.
  destruct o as [d2| |]; cbn; auto.
  intros (L1 & P1 & E1 & B1 & F1 & S1 & G1) (L2 & P2 & E2 & B2 & F2 & S2 & G2).
  split; [lia|]. split; [lia|]. split; [congruence|]. split; [intros; apply B2; apply B1; auto|].
  split; [|split].
  - rewrite <- F1. eapply firstn_le_eq; [exact P1|exact F2].
  - rewrite S2. eapply skipn_le_eq; [exact P2|exact S1].
  - intros HP. specialize (G1 HP). specialize (G2 HP). destruct G1 as [G1b G1], G2 as [G2b G2].
    split; [lia|]. intros i Hi.
    assert (FE : forall k, k < rd_dpos d1 -> nth_error (rd_dst d2) k = nth_error (rd_dst d1) k).
    { intros k Hk. rewrite <- (nth_error_firstn_lt (rd_dst d2) (rd_dpos d1)) by exact Hk.
      rewrite F2. apply nth_error_firstn_lt; exact Hk. }
    destruct (Nat.lt_ge_cases i (rd_dpos d1)) as [Hl|Hl].
    + destruct (G1 i ltac:(lia)) as (x & X1 & X2 & X3). exists x. rewrite FE by exact Hl.
      split; [exact X1|]. split; [lia|]. intros j y Hj. rewrite FE by lia. apply X3. lia.
    + destruct (G2 i ltac:(lia)) as (x & X1 & X2 & X3). exists x. split; [exact X1|]. split; [lia|].
      intros j y Hj Hy. destruct (Nat.lt_ge_cases j (rd_dpos d1)) as [Hj1|Hj1].
      * rewrite FE in Hy by exact Hj1. destruct (G1 j ltac:(lia)) as (y' & Y1 & Y2 & _).
        rewrite Hy in Y1. injection Y1 as <-. lia.
      * apply (X3 j); [lia|exact Hy].
Qed.

Lemma step_ok_bind p d o k : step_ok p d o -> (forall d1, o = Ret d1 -> step_ok p d1 (k d1)) -> step_ok p d (bind o k).
Proof.
  intros H1 H2. destruct o as [d1| |]; cbn [bind]; [|exact I|exact H1].
  eapply step_ok_trans; [exact H1|]. apply H2. reflexivity.
Qed.

Lemma step_bump p d n : step_ok p d (rle_bump p d n).
Proof.
  unfold rle_bump, add32, uadd. destruct (N.ltb_spec (rd_bpos d + n) u32_lim).
  - rewrite bind_ret. cbn. repeat split; auto; intros; lia.
  - destruct p; [exact I|]. rewrite bind_ret. cbn. repeat split; auto; intros; try discriminate; lia.
Qed.

Lemma step_store_bump p d : step_ok p d (let* d := rle_store d in rle_bump p d 1).
Proof.
  unfold rle_store, upd. destruct (Nat.ltb_spec (rd_dpos d) (length (rd_dst d))) as [H|H]; [|exact I].
  rewrite !bind_ret. unfold rle_bump, add32, uadd. cbn [rd_bpos rd_dst rd_epos rd_dpos].
  assert (A : forall b, (p = Debug -> b = rd_bpos d + 1)%N ->
     step_ok p d (Ret (mk_rdec (set_nth (rd_dst d) (rd_dpos d) (rd_bpos d)) (rd_epos d) (rd_dpos d + 1) b))).
  { intros b Hb. cbn. rewrite set_nth_length. split; [reflexivity|]. split; [lia|]. split; [reflexivity|].
    split; [lia|]. rewrite set_nth_split by exact H.
    assert (LF : length (firstn (rd_dpos d) (rd_dst d)) = rd_dpos d) by (rewrite firstn_length; lia).
    split; [|split].
    - apply firstn_app_len. auto.
    - replace (rd_dpos d + 1) with (length (firstn (rd_dpos d) (rd_dst d) ++ [rd_bpos d])) at 1
        by (rewrite app_length, LF; reflexivity).
      change (firstn (rd_dpos d) (rd_dst d) ++ rd_bpos d :: skipn (S (rd_dpos d)) (rd_dst d))
        with (firstn (rd_dpos d) (rd_dst d) ++ [rd_bpos d] ++ skipn (S (rd_dpos d)) (rd_dst d)).
      rewrite app_assoc, skipn_app_exact. rewrite Nat.add_1_r. reflexivity.
    - intros HP. rewrite (Hb HP). split; [lia|]. intros i Hi. assert (i = rd_dpos d) by lia. subst i.
      exists (rd_bpos d). split; [|split; [lia|intros; lia]].
      rewrite nth_error_app2 by lia. rewrite LF, Nat.sub_diag. reflexivity. }
  destruct (N.ltb_spec (rd_bpos d + 1) u32_lim).
  - rewrite bind_ret. apply A. reflexivity.
  - destruct p; [exact I|]. rewrite bind_ret. apply A. discriminate.
Qed.

Lemma step_masks p byte masks : forall d, step_ok p d (rle_decode_masks p masks byte d).
Proof.
  induction masks as [|m masks IH]; intros d; [apply step_ok_refl|].
  cbn [rle_decode_masks]. rewrite <- bind_assoc. apply step_ok_bind; [|intros d1 _; apply IH].
  destruct (negb _); [apply step_store_bump|]. rewrite bind_ret. apply step_bump.
Qed.

Lemma step_bitmap p bytes : forall d, step_ok p d (rle_decode_bitmap p bytes d).
Proof.
  induction bytes as [|b bytes IH]; intros d; [apply step_ok_refl|].
  cbn [rle_decode_bitmap]. apply step_ok_bind; [apply step_masks|intros d1 _; apply IH].
Qed.

Lemma step_ones p n : forall d, step_ok p d (rle_decode_ones p n d).
Proof.
  induction n as [|n IH]; intros d; [apply step_ok_refl|].
  cbn [rle_decode_ones]. rewrite <- bind_assoc. apply step_ok_bind; [apply step_store_bump|intros d1 _; apply IH].
Qed.

Lemma step_repeat p n v : forall d, step_ok p d (rle_decode_repeat p n v d).
Proof.
  induction n as [|n IH]; intros d; [apply step_ok_refl|].
  cbn [rle_decode_repeat]. apply step_ok_bind; [apply step_masks|intros d1 _; apply IH].
Qed.

Lemma step_run p len v d : step_ok p d (rle_decode_run p len v d).
Proof.
  unfold rle_decode_run. destruct (v =? 0)%N; [apply step_bump|]. destruct (v =? 255)%N; [apply step_ones|apply step_repeat].
Qed.

Lemma bytes_ok_skipn l n : bytes_ok l -> bytes_ok (skipn n l).
Proof. unfold bytes_ok. rewrite !Forall_forall. intros H x Hx. apply H. rewrite <- (firstn_skipn n l). apply in_or_app; auto. Qed.

(** The loop, with the read position hidden from the invariant. *)
Definition at_epos (d : rle_dec) (e : nat) : rle_dec := mk_rdec (rd_dst d) e (rd_dpos d) (rd_bpos d).

Lemma step_at_epos p d e o : step_ok p (at_epos d e) o ->
  step_ok p d (match o with Ret d' => Ret (at_epos d' (rd_epos d)) | Panic k => Panic k | NoFuel => NoFuel end).
Proof. destruct o; cbn; auto. intros (A & B & C & D). repeat split; try tauto; intros; apply D; auto. Qed.

Definition forget_epos (e : nat) (o : outcome rle_dec) : outcome rle_dec :=
  match o with Ret d' => Ret (at_epos d' e) | Panic k => Panic k | NoFuel => NoFuel end.

Lemma read_frame_total p enc d : bytes_ok enc -> rd_epos d < length enc ->
  is_panic (rle_read_frame p enc d)
  \/ exists e f, rle_read_frame p enc d = Ret (at_epos d e, f) /\ rd_epos d < e <= length enc.
Proof.
  intros Hok He. unfold rle_read_frame, slice_from.
  destruct (Nat.leb_spec (rd_epos d) (length enc)); [|lia]. rewrite bind_ret.
  destruct (decode_varint_total p (skipn (rd_epos d) enc) (bytes_ok_skipn _ _ Hok)) as [(v & n & E & Hn)|[E|[k E]]];
    rewrite E; [|left; eexists; reflexivity|left; eexists; reflexivity].
  rewrite bind_ret. rewrite skipn_length in Hn.
  destruct (N.shiftr v 1 <=? u32_max)%N; [|left; eexists; reflexivity].
  destruct (N.odd v).
  - unfold slice. destruct ((_ <=? _) && (_ <=? _)) eqn:ES; [|left; eexists; reflexivity].
    rewrite bind_ret. right. eexists _, _. split; [reflexivity|]. lia.
  - unfold idx. destruct (nth_error enc (rd_epos d + n)) eqn:EN; [|left; eexists; reflexivity].
    rewrite bind_ret. right. eexists _, _. split; [reflexivity|].
    assert (rd_epos d + n < length enc) by (apply nth_error_Some; congruence). lia.
Qed.

Lemma decode_loop_total p enc : bytes_ok enc -> forall fuel d, length enc - rd_epos d < fuel ->
  step_ok p d (forget_epos (rd_epos d) (rle_decode_loop p fuel enc d)).
Proof.
  intros Hok. induction fuel as [|fuel IH]; intros d HF; [lia|].
  cbn [rle_decode_loop]. destruct (Nat.ltb_spec (rd_epos d) (length enc)) as [He|He].
  2:{ cbn [forget_epos]. destruct d; apply step_ok_refl. }
  destruct (read_frame_total p enc d Hok He) as [[k E]|(e & f & E & H)]; rewrite E; [exact I|].
  rewrite bind_ret. cbn [fst snd].
  assert (S1 : step_ok p (at_epos d e) (match f with FRun len value => rle_decode_run p len value (at_epos d e)
                  | FBitmap bytes => rle_decode_bitmap p bytes (at_epos d e) end)).
  { destruct f; [apply step_run|apply step_bitmap]. }
  destruct (match f with FRun len value => _ | FBitmap bytes => _ end) as [d1| |]; [|exact I|destruct S1].
  rewrite bind_ret.
  assert (HE1 : rd_epos d1 = e) by (destruct S1 as (_ & _ & X & _); exact X).
  specialize (IH d1 ltac:(lia)). rewrite HE1 in IH.
  apply step_at_epos in S1.
  eapply step_ok_trans; [exact S1|].
  destruct (rle_decode_loop p fuel enc d1) as [d2| |]; cbn [forget_epos] in *; auto.
  destruct IH as (A & B & C & D & F). split; [exact A|]. split; [exact B|]. split; [reflexivity|]. split; [exact D|]. exact F.
Qed.
