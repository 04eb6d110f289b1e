(** Property C83: bitmaps and blocks of which only a first part is there
    (bitmap_rle.rs, raw/primitive_enc.rs). *)
From Verif Require Import Base BaseProofs Spec SpecRows SpecBin Varint VarintProofs VarintDecodeProofs Buffers Observe BitmapProofs
  BuffersProofs Rle RleProofs RleDecodeProofs RleTrackProofs PropsRle Sink PrimEnc ReadBlock ObserveEnc RowsProofs BlockProofs
  PrimEncProofs PrimRunProofs PropsPrim PropsPrimRows PropsPrimIds PropsPrimAll.
Open Scope nat_scope.

(** ** A varint cut short *)

Lemma varint_cut p v c : (v < u64_lim)%N -> c < length (varint_bytes v) ->
  decode_varint p (firstn c (varint_bytes v)) = Panic PIndex.
Proof.
  intros Hv Hc. destruct (varint_bytes_shape v Hv) as (pre & b & E & H1 & H2 & H3 & H4 & H5 & _).
  rewrite E in *. rewrite app_length in Hc. cbn [length] in Hc.
  rewrite firstn_app. replace (c - length pre) with 0 by lia. cbn [firstn]. rewrite app_nil_r.
  apply decode_truncated.
  - unfold bytes_ok in *. rewrite Forall_forall in *. intros x Hx. apply H1. rewrite <- (firstn_skipn c pre). apply in_or_app. auto.
  - rewrite Forall_forall in *. intros x Hx. apply H2. rewrite <- (firstn_skipn c pre). apply in_or_app. auto.
  - rewrite firstn_length. lia.
Qed.

(** ** A frame cut short *)

Lemma read_frame_cut p pre f c d :
  rd_epos d = length pre -> (8 * N.of_nat (length (frame_exp f)) < u32_lim)%N -> 0 < c < length (frame_bytes f) ->
  is_panic (rle_read_frame p (pre ++ firstn c (frame_bytes f)) d).
Proof.
  intros HE HL Hc. unfold rle_read_frame, slice_from. rewrite HE, app_length.
  destruct (Nat.leb_spec (length pre) (length pre + length (firstn c (frame_bytes f)))); [|lia].
  rewrite bind_ret. rewrite skipn_app_exact.
  destruct f as [len v|l]; cbn [frame_bytes frame_exp] in *.
  - rewrite repeat_length in HL. assert (HV : (2 * len < u64_lim)%N) by (unfold u32_lim, u64_lim in *; lia).
    rewrite app_length in Hc. cbn [length] in Hc. set (h := varint_bytes (2 * len)) in *.
    destruct (Nat.eq_dec c (length h)) as [->|Hn].
    + rewrite firstn_app_exact. replace (decode_varint p h) with (decode_varint p (h ++ [])) by (rewrite app_nil_r; reflexivity).
      unfold h. rewrite decode_varint_bytes by exact HV. rewrite bind_ret. fold h.
      rewrite N.shiftr_div_pow2. change (2 ^ 1)%N with 2%N.
      replace (2 * len / 2)%N with len by (symmetry; rewrite N.mul_comm; apply N.div_mul; lia).
      destruct (N.leb_spec len u32_max); [|unfold u32_max, u32_lim in *; lia].
      rewrite N.odd_mul. change (N.odd 2) with false. cbn [andb].
      unfold idx. rewrite (proj2 (nth_error_None _ _)) by (rewrite app_length; lia). eexists. reflexivity.
    + rewrite firstn_app. replace (c - length h) with 0 by lia. cbn [firstn]. rewrite app_nil_r.
      unfold h. rewrite varint_cut by (try exact HV; fold h; lia). eexists. reflexivity.
  - assert (HV : (2 * N.of_nat (length l) + 1 < u64_lim)%N) by (unfold u32_lim, u64_lim in *; lia).
    rewrite app_length in Hc. set (h := varint_bytes (2 * N.of_nat (length l) + 1)) in *.
    destruct (Nat.le_gt_cases (length h) c) as [Hh|Hh].
    + rewrite firstn_app. rewrite (firstn_all2 h) by lia.
      unfold h at 1. rewrite decode_varint_bytes by exact HV. rewrite bind_ret. fold h.
      rewrite N.shiftr_div_pow2. change (2 ^ 1)%N with 2%N.
      replace ((2 * N.of_nat (length l) + 1) / 2)%N with (N.of_nat (length l))
        by (symmetry; rewrite N.add_comm, N.mul_comm, N.div_add by lia; reflexivity).
      destruct (N.leb_spec (N.of_nat (length l)) u32_max); [|unfold u32_max, u32_lim in *; lia].
      rewrite N.odd_add, N.odd_mul. change (N.odd 2) with false. change (N.odd 1) with true. cbn [andb xorb].
      rewrite Nat2N.id. unfold slice. rewrite !app_length, firstn_length.
      destruct (_ <=? _) eqn:E1; [|eexists; reflexivity].
      destruct (_ <=? length pre + _) eqn:E2; [apply Nat.leb_le in E2; lia|]. cbn [andb]. eexists; reflexivity.
    + rewrite firstn_app. replace (c - length h) with 0 by lia. cbn [firstn]. rewrite app_nil_r.
      unfold h. rewrite varint_cut by (try exact HV; fold h; lia). eexists. reflexivity.
Qed.

Lemma decode_loop_cut p fs f c : forall pre d fuel,
  rd_epos d = length pre -> rd_dpos d <= length (rd_dst d) -> length fs < fuel ->
  (rd_bpos d + 8 * N.of_nat (length (exp_of (fs ++ [f]))) < u32_lim)%N ->
  0 < c < length (frame_bytes f) ->
  is_panic (rle_decode_loop p fuel (pre ++ enc_of fs ++ firstn c (frame_bytes f)) d).
Proof.
  induction fs as [|g fs IH]; intros pre d fuel HE HD HF HB Hc.
  - destruct fuel as [|fuel]; [simpl in HF; lia|]. cbn [enc_of flat_map app] in *. cbn [rle_decode_loop].
    destruct (Nat.ltb_spec (rd_epos d) (length (pre ++ firstn c (frame_bytes f)))) as [_|X];
      [|rewrite app_length, firstn_length in X; lia].
    destruct (read_frame_cut p pre f c d HE) as [k Hk]; [|exact Hc|].
    + cbn [exp_of flat_map] in HB. rewrite app_nil_r in HB. unfold u32_lim in *. lia.
    + rewrite Hk. exists k. reflexivity.
  - destruct fuel as [|fuel]; [simpl in HF; lia|]. cbn [length] in HF.
    change (enc_of (g :: fs)) with (frame_bytes g ++ enc_of fs). rewrite <- app_assoc.
    cbn [app] in HB. change (exp_of (g :: fs ++ [f])) with (frame_exp g ++ exp_of (fs ++ [f])) in HB.
    rewrite app_length in HB. cbn [rle_decode_loop].
    pose proof (frame_bytes_pos g).
    destruct (Nat.ltb_spec (rd_epos d) (length (pre ++ frame_bytes g ++ enc_of fs ++ firstn c (frame_bytes f)))) as [_|X];
      [|rewrite !app_length in X; lia].
    rewrite read_frame_ok by (try exact HE; unfold u32_lim in *; lia). rewrite bind_ret. cbn [fst snd].
    set (d0 := mk_rdec (rd_dst d) (length pre + length (frame_bytes g)) (rd_dpos d) (rd_bpos d)).
    assert (EQ : (match g with FRun len value => rle_decode_run p len value d0
                  | FBitmap bytes => rle_decode_bitmap p bytes d0 end) = place d0 (bits_of_bytes (frame_exp g))).
    { destruct g as [len v|l]; cbn [frame_exp] in *.
      - rewrite repeat_length in HB. apply decode_run_ok; [exact HD|]. cbn. unfold u32_lim in *. lia.
      - apply decode_bitmap_ok; [exact HD|]. cbn. lia. }
    rewrite EQ. destruct (place d0 (bits_of_bytes (frame_exp g))) as [d1| |] eqn:E1.
    + rewrite bind_ret. destruct (place_ok _ _ _ E1) as (P1 & P2 & P3 & P4).
      rewrite app_assoc. apply IH; auto.
      * rewrite P4, app_length. reflexivity.
      * lia.
      * rewrite P3, bits_of_bytes_length. subst d0. cbn [rd_bpos]. lia.
    + eexists. reflexivity.
    + unfold place in E1. destruct (_ <=? _); discriminate E1.
Qed.

(** ** The frames of an encoding, the last of which is not empty *)

Definition full_frames (fs : list rle_frame) : Prop := fs = [] \/ exists fs0 f, fs = fs0 ++ [f] /\ frame_exp f <> [].

Lemma flush_full e bits : rle_bits e bits -> (2 * N.of_nat (length bits) + 3 < u64_lim)%N ->
  exists e' fs k, rle_flush e = Ret e' /\ re_out e' = enc_of fs
    /\ bits_of_bytes (exp_of fs) = bits ++ repeat false k /\ k < 8 /\ full_frames fs.
Proof.
  intros (bytes & cur & HI & HB & HC & HP & HV) HL. unfold rle_flush.
  assert (HLb : length bytes <= length bits) by (rewrite HB, app_length, bits_of_bytes_length; lia).
  assert (X : exists e1 bytes1 k, (if 0 <? re_bit_pos e then rle_append e (re_byte e) else Ret e) = Ret e1
     /\ rle_inv e1 bytes1 /\ bits_of_bytes bytes1 = bits ++ repeat false k /\ k < 8 /\ length bytes1 <= length bits).
  { destruct (Nat.ltb_spec 0 (re_bit_pos e)) as [H0|H0].
    - destruct (rle_append_ok e bytes (re_byte e) HI) as (e1 & E1 & HI1 & _).
      + lia.
      + exists e1, (bytes ++ [re_byte e]), (8 - length cur). split; [exact E1|]. split; [exact HI1|].
        split; [|split; [lia|]].
        * rewrite bits_of_bytes_app, HB, <- app_assoc. f_equal. unfold bits_of_bytes; cbn [flat_map].
          rewrite app_nil_r, HV. apply bits_of_value. lia.
        * rewrite HB, !app_length, bits_of_bytes_length. cbn [length]. lia.
    - exists e, bytes, 0. cbn [repeat]. rewrite app_nil_r. repeat split; auto; [|lia].
      destruct cur; [|simpl in HC; lia]. rewrite app_nil_r in HB. auto. }
  destruct X as (e1 & bytes1 & k & E1 & HI1 & HB1 & Hk & HL1). rewrite E1, bind_ret.
  destruct HI1 as (fs & pend & Hb & HO & HPd & HS & HIn). unfold rle_pending in *.
  assert (Hpl : length pend <= length bytes1) by (rewrite Hb, app_length; lia).
  assert (LIT : pend = re_buffer e1 -> pend <> [] ->
    exists e' fs k, rle_emit_literal e1 (length (re_buffer e1)) = Ret e' /\ re_out e' = enc_of fs
      /\ bits_of_bytes (exp_of fs) = bits ++ repeat false k /\ k < 8 /\ full_frames fs).
  { intros -> HN. rewrite emit_literal_ok; [|exact HN|lia|lia]. rewrite firstn_all.
    eexists; exists (fs ++ [FBitmap (re_buffer e1)]), k.
    split; [reflexivity|]. cbn [set_out re_out]. rewrite enc_of_app, exp_of_app. cbn [enc_of exp_of flat_map frame_exp].
    rewrite !app_nil_r. split; [rewrite HO; reflexivity|]. unfold exp_of in *. rewrite <- Hb.
    split; [exact HB1|]. split; [exact Hk|]. right. eexists _, _. split; [reflexivity|exact HN]. }
  destruct (re_state e1) eqn:ES.
  - destruct HPd as [-> HBuf]. rewrite (HIn eq_refl) in *. exists e1, [], k.
    split; [reflexivity|]. split; [exact HO|]. rewrite app_nil_r in Hb. rewrite <- Hb.
    split; [exact HB1|]. split; [exact Hk|]. left. reflexivity.
  - destruct HPd as [-> [pre HBuf]]. apply LIT; [reflexivity|]. rewrite HBuf. destruct pre; discriminate.
  - destruct HPd as (-> & HR & pre & HBuf & HPre). apply LIT; [reflexivity|]. rewrite HBuf. destruct pre; discriminate.
  - destruct HPd as (HBuf & -> & HR). rewrite repeat_length in *.
    rewrite emit_run_ok by lia.
    eexists; exists (fs ++ [FRun (N.of_nat (re_repeat e1)) (re_last e1)]), k.
    split; [reflexivity|]. cbn [set_out re_out]. rewrite enc_of_app, exp_of_app. cbn [enc_of exp_of flat_map frame_exp].
    rewrite !app_nil_r, Nat2N.id. split; [rewrite HO; reflexivity|]. unfold exp_of in *. rewrite <- Hb.
    split; [exact HB1|]. split; [exact Hk|]. right. eexists _, _. split; [reflexivity|].
    cbn [frame_exp]. rewrite Nat2N.id. destruct (re_repeat e1); [lia|discriminate].
Qed.

Lemma encode_full bits : (N.of_nat (length bits) <= 2 ^ 32)%N ->
  exists fs k, rle_encode rle_new bits = Ret (enc_of fs)
    /\ bits_of_bytes (exp_of fs) = bits ++ repeat false k /\ k < 8 /\ full_frames fs.
Proof.
  intros H. change (2 ^ 32)%N with 4294967296%N in H. unfold rle_encode.
  destruct (rle_puts_ok bits rle_new [] rle_bits_new) as (e1 & E1 & B1); [unfold u64_lim; cbn [length]; lia|].
  cbn [app] in B1. destruct (flush_full e1 bits B1) as (e2 & fs & k & E2 & O2 & HB & Hk & HF);
    [unfold u64_lim; lia|].
  exists fs, k. rewrite E1, bind_ret, E2, bind_ret, O2. auto.
Qed.

(** Where a first part of some frames ends. *)
Lemma frames_cut fs : forall c, c < length (enc_of fs) ->
  exists fs1 f fs2 r, fs = fs1 ++ f :: fs2 /\ firstn c (enc_of fs) = enc_of fs1 ++ firstn r (frame_bytes f)
    /\ r < length (frame_bytes f).
Proof.
  induction fs as [|g fs IH]; intros c Hc; [cbn in Hc; lia|].
  change (enc_of (g :: fs)) with (frame_bytes g ++ enc_of fs) in *. rewrite app_length in Hc.
  destruct (Nat.lt_ge_cases c (length (frame_bytes g))) as [H|H].
  - exists [], g, fs, c. split; [reflexivity|]. split; [|exact H].
    rewrite firstn_app. replace (c - length (frame_bytes g)) with 0 by lia. cbn [firstn]. apply app_nil_r.
  - destruct (IH (c - length (frame_bytes g))) as (fs1 & f & fs2 & r & -> & E & Hr); [lia|].
    exists (g :: fs1), f, fs2, r. split; [reflexivity|]. split; [|exact Hr].
    rewrite firstn_app, firstn_all2 by lia. rewrite E.
    change (enc_of (g :: fs1)) with (frame_bytes g ++ enc_of fs1). apply app_assoc.
Qed.

(** ** C83 *)

(** Decoding the first [k] bytes of the encoding of some bits, but not all of
    them, panics or gives the positions of the set bits among the first [8 * j]
    bits, for a [j] with [8 * j] less than the number of bits. *)
Theorem C83_bitmap_partial :
  forall p bits enc dst k,
  (N.of_nat (length bits) <= 2 ^ 32 - 8)%N -> rle_encode rle_new bits = Ret enc -> k < length enc ->
  is_panic (rle_decode p (firstn k enc) dst)
  \/ exists j, 8 * j < length bits
       /\ let first := firstn (8 * j) bits in
          rle_decode p (firstn k enc) dst
          = Ret (set_positions 0 first ++ skipn (count_true first) dst, count_true first).
Proof.
  intros p bits enc dst k HL HE Hk. change (2 ^ 32 - 8)%N with 4294967288%N in HL.
  destruct (encode_full bits) as (fs & z & E & HB & Hz & HF); [change (2 ^ 32)%N with 4294967296%N; lia|].
  rewrite HE in E. injection E as ->.
  pose proof (f_equal (@length bool) HB) as L. rewrite bits_of_bytes_length, app_length, repeat_length in L.
  destruct (frames_cut fs k Hk) as (fs1 & f & fs2 & r & -> & EC & Hr). rewrite EC.
  assert (LT : length (exp_of fs1) < length (exp_of (fs1 ++ f :: fs2))).
  { destruct HF as [HF|(fs0 & g & HF & HG)]; [destruct fs1; discriminate|].
    rewrite exp_of_app, app_length.
    assert (IG : In g (f :: fs2)).
    { destruct (exists_last (l := f :: fs2)) as (a & x & Ea); [discriminate|]. rewrite Ea in HF.
      rewrite app_assoc in HF. apply app_inj_tail in HF. destruct HF as [_ ->]. rewrite Ea. apply in_or_app. right. left. reflexivity. }
    apply in_split in IG. destruct IG as (a & b & ->). rewrite exp_of_app, app_length.
    change (exp_of (g :: b)) with (frame_exp g ++ exp_of b). rewrite app_length. destruct (frame_exp g); [congruence|cbn [length]; lia]. }
  destruct (Nat.eq_dec r 0) as [->|Hr0].
  - cbn [firstn]. rewrite app_nil_r. rewrite decode_frames_ok by (unfold u32_lim; lia).
    assert (EF : bits_of_bytes (exp_of fs1) = firstn (8 * length (exp_of fs1)) bits).
    { rewrite exp_of_app, bits_of_bytes_app in HB.
      pose proof (f_equal (firstn (8 * length (exp_of fs1))) HB) as F.
      rewrite <- (bits_of_bytes_length (exp_of fs1)) in F at 1. rewrite firstn_app_exact in F. rewrite F.
      rewrite firstn_app. replace (8 * length (exp_of fs1) - length bits) with 0 by lia. cbn [firstn]. apply app_nil_r. }
    rewrite EF. destruct (_ <=? _); [|left; eexists; reflexivity].
    right. exists (length (exp_of fs1)). split; [lia|reflexivity].
  - left. unfold rle_decode.
    destruct (decode_loop_cut p fs1 f r [] (rdec_new dst) (S (length (enc_of fs1 ++ firstn r (frame_bytes f))))) as [kd Hd].
    + reflexivity.
    + cbn. lia.
    + pose proof (enc_of_length fs1). rewrite app_length. lia.
    + cbn [rdec_new rd_bpos]. rewrite exp_of_app, app_length in *. change (exp_of (f :: fs2)) with (frame_exp f ++ exp_of fs2) in L.
      rewrite app_length in L. cbn [exp_of flat_map] in *. rewrite app_nil_r. unfold exp_of, u32_lim in *. lia.
    + lia.
    + cbn [app] in Hd. rewrite Hd. exists kd. reflexivity.
Qed.
Print Assumptions C83_bitmap_partial.

(** So it is not always noticed: the encoding of these bits without its last two
    bytes is decoded as if the last value were not there. *)
Theorem C83_bitmap_refuted :
  ~ (forall p bits enc dst k, (N.of_nat (length bits) <= 2 ^ 32 - 8)%N -> rle_encode rle_new bits = Ret enc ->
       k < length enc -> count_true bits <= length dst -> is_panic (rle_decode p (firstn k enc) dst)).
Proof.
  intros H. destruct (H Debug ([true] ++ repeat false 31 ++ [true]) [3; 1; 6; 0; 3; 1]%N [7; 7]%N 4) as [k Hk].
  - vm_compute. discriminate.
  - vm_compute. reflexivity.
  - cbn. lia.
  - vm_compute. lia.
  - vm_compute in Hk. discriminate Hk.
Qed.
Print Assumptions C83_bitmap_refuted.

Lemma count_firstn (bits : list bool) i : i < length bits -> last bits false = true ->
  count_true (firstn i bits) < count_true bits.
Proof.
  intros Hi HL. destruct (exists_last (l := bits)) as (a & x & ->); [intros ->; cbn in Hi; lia|].
  rewrite last_last in HL. subst x. rewrite app_length in Hi. cbn [length] in Hi.
  rewrite firstn_app. replace (i - length a) with 0 by lia. cbn [firstn]. rewrite app_nil_r.
  rewrite <- (firstn_skipn i a) at 2. rewrite !count_true_app. change (count_true [true]) with 1. lia.
Qed.

(** Bits that end with a set one, as the validity of every block does: the
    number of values tells. *)
Theorem C83_bitmap_count :
  forall p bits enc dst k,
  (N.of_nat (length bits) <= 2 ^ 32 - 8)%N -> last bits false = true ->
  rle_encode rle_new bits = Ret enc -> k < length enc ->
  is_panic (rle_decode p (firstn k enc) dst)
  \/ exists dst' n, rle_decode p (firstn k enc) dst = Ret (dst', n) /\ n < count_true bits.
Proof.
  intros p bits enc dst k HL HT HE Hk. destruct (C83_bitmap_partial p bits enc dst k HL HE Hk) as [H|(j & Hj & H)]; [left; exact H|].
  right. cbv zeta in H. eexists _, _. split; [exact H|]. apply count_firstn; auto.
Qed.
Print Assumptions C83_bitmap_count.

Lemma last_validity {T} (w : list (option T)) : ends_some w -> w <> [] -> last (validity_of w) false = true.
Proof.
  intros [->|(r & v & ->)] H; [congruence|]. unfold validity_of. rewrite map_app. cbn [map]. rewrite last_last. reflexivity.
Qed.

(** Reading panics or reports an error. *)
Definition refused {A} (m : outcome (result A)) : Prop := is_panic m \/ m = Ret Err.

Lemma prim_block_cut p sz nl w k : 0 < sz -> (N.of_nat sz < 2 ^ 31)%N -> ends_some w ->
  (N.of_nat (length w) <= 2 ^ 32 - 8)%N -> k < length (prim_block sz nl w) ->
  refused (read_primitive_block p sz nl (firstn k (prim_block sz nl w))).
Proof.
  intros Hs Hz HE HL Hk. unfold read_primitive_block, prim_block in *.
  change (2 ^ 31)%N with 2147483648%N in Hz. change (2 ^ 32 - 8)%N with 4294967288%N in HL.
  pose proof (somes_length_le w) as SL. fold (num_vals w) in SL.
  assert (HV : (N.of_nat (sz * num_vals w) < u64_lim)%N) by (unfold u64_lim; nia).
  set (V := varint_bytes (N.of_nat (sz * num_vals w))) in *. set (D := to_byte_slice sz (somes w)) in *. set (Y := if nl then _ else _) in *.
  assert (LD : length D = sz * num_vals w) by apply bytes_length.
  rewrite !app_length in Hk. rewrite firstn_app.
  destruct (Nat.lt_ge_cases k (length V)) as [H1|H1].
  - left. replace (k - length V) with 0 by lia. cbn [firstn]. rewrite app_nil_r.
    unfold V. rewrite varint_cut by (try exact HV; exact H1). eexists. reflexivity.
  - rewrite (firstn_all2 V) by lia. unfold V at 1. rewrite decode_varint_bytes by exact HV. rewrite bind_ret, Nat2N.id. fold V.
    rewrite firstn_app. destruct (Nat.lt_ge_cases (k - length V) (length D)) as [H2|H2].
    + left. unfold slice. rewrite !app_length, !firstn_length.
      match goal with |- context [?a && (?x <=? ?y)] => assert (E2 : (x <=? y) = false) by (apply Nat.leb_gt; lia) end.
      rewrite E2, andb_false_r. eexists; reflexivity.
    + rewrite (firstn_all2 D) by lia. set (c := k - length V - length D).
      rewrite slice_ok by (rewrite ?app_length; lia). rewrite bind_ret.
      replace (length V + sz * num_vals w - length V) with (length D) by lia.
      rewrite skipn_app_exact, firstn_app_exact.
      replace (skipn (length V + sz * num_vals w) (V ++ D ++ firstn c Y)) with (firstn c Y).
      2:{ rewrite app_assoc. replace (length V + sz * num_vals w) with (length (V ++ D)) by (rewrite app_length; lia).
          rewrite skipn_app_exact. reflexivity. }
      destruct (_ =? 0); [|right; reflexivity].
      destruct nl; [|cbn in Y; subst Y; cbn [length] in Hk; lia].
      unfold read_rows. set (vals := map le_value _).
      assert (LV : length vals = num_vals w).
      { unfold vals, D. replace (sz * num_vals w) with (num_vals w * sz) by lia. rewrite Nat.div_mul by lia.
        unfold num_vals at 1. rewrite pieces_bytes, !map_length. reflexivity. }
      rewrite LV. cbn iota in Y.
      destruct (C83_bitmap_count p (validity_of w) Y (repeat 0%N (num_vals w)) c) as [[kd Hd]|(dst' & n & Hd & Hn)].
      * rewrite validity_length. exact HL.
      * apply last_validity; [exact HE|]. intros ->. change Y with (@nil N) in Hk. cbn [length] in Hk. lia.
      * apply validity_bytes_ok. rewrite validity_length. change (2 ^ 32)%N with 4294967296%N. lia.
      * unfold c. lia.
      * left. rewrite Hd. exists kd. reflexivity.
      * right. rewrite Hd, bind_ret. cbn [fst snd]. rewrite count_validity in Hn.
        destruct (Nat.eqb_spec n (num_vals w)); [fold (num_vals w) in Hn; lia|reflexivity].
Qed.

(** A block of fixed-width values of which only a first part is there is never
    read as a block: encoded from any window of a buffer that ends with a
    non-null row. *)
Theorem C83_block :
  forall p sz nl buf before w after rle block rle' counts k,
  0 < sz -> (N.of_nat sz < 2 ^ 31)%N ->
  pb_holds buf nl (before ++ w ++ after) -> (exists r v, w = r ++ [Some v]) ->
  (N.of_nat (length w) <= 2 ^ 32 - 8)%N ->
  let start := length (somes before) in
  encode_primitive_buffer sz buf start (start + length (somes w)) (length before) rle = Ret (block, rle', counts) ->
  k < length block ->
  refused (read_primitive_block p sz nl (firstn k block)).
Proof.
  intros p sz nl buf before w after rle block rle' counts k Hs Hz HH HE HL start HB Hk.
  assert (HE' : ends_some w) by (right; exact HE). pose proof (somes_length_le w) as SL.
  destruct (encode_primitive_ok sz buf nl before w after rle HH HE') as (rle1 & E).
  { change (2 ^ 32)%N with 4294967296%N. change (2 ^ 32 - 8)%N with 4294967288%N in HL. lia. }
  { change (2 ^ 31)%N with 2147483648%N in Hz. change (2 ^ 32 - 8)%N with 4294967288%N in HL. unfold num_vals, u64_lim. nia. }
  fold (num_vals before) in start. fold (num_vals w) in HB. unfold start in HB. rewrite E in HB. injection HB as <- _ _.
  apply prim_block_cut; auto.
Qed.
Print Assumptions C83_block.

Lemma width_fits sz B : 0 < sz -> (0 < B)%N -> exists cap, (B <= N.of_nat (cap * sz) < B + N.of_nat sz)%N.
Proof.
  intros Hs HB. exists (N.to_nat ((B + N.of_nat sz - 1) / N.of_nat sz)).
  rewrite Nat2N.inj_mul, N2Nat.id. pose proof (N.div_mod (B + N.of_nat sz - 1) (N.of_nat sz) ltac:(lia)).
  pose proof (N.mod_lt (B + N.of_nat sz - 1) (N.of_nat sz) ltac:(lia)). lia.
Qed.

(** Whatever buffers a fixed-width column is given: no block written for it is a
    first part of another, of the same column or of any other column with the
    same width and nullability (whatever its block size), because one of which
    only a first part is there is not read as a block while every one is. *)
Theorem C83_column :
  forall p sz B nl bufs rowss written,
  0 < sz -> (N.of_nat sz < 2 ^ 31)%N -> (0 < B < 2 ^ 32)%N ->
  Forall2 (fun b rows => pb_holds b nl rows) bufs rowss ->
  (total_rows rowss <= 2 ^ 32 - 8)%N -> Forall (fit sz) rowss ->
  pe_column p sz B nl bufs = Ret (written, Ok tt) ->
  Forall (fun b => (exists rows, read_primitive_block p sz nl (snd b) = Ret (Ok rows))
    /\ forall k, k < length (snd b) -> forall rows, read_primitive_block p sz nl (firstn k (snd b)) <> Ret (Ok rows)) written.
Proof.
  intros p sz B nl bufs rowss written Hs Hz HB HH HT HV HR. destruct (width_fits sz B Hs ltac:(lia)) as [cap HC].
  pose proof (column_written p sz B cap nl bufs rowss Hs Hz HB HC HH HT HV) as X. cbv zeta in X.
  destruct (snd (col_all _ _ _ _ _ _ _ _)) as [[past held]|].
  2:{ destruct (_ <=? _)%N; rewrite X in HR; discriminate HR. }
  destruct (_ <=? _)%N; [|rewrite X in HR; discriminate HR].
  destruct X as (wr & E & _ & RB & EM & G). rewrite HR in E. injection E as <-.
  rewrite Forall_forall. intros b Hb. apply (in_map snd) in Hb. rewrite EM in Hb. apply in_map_iff in Hb.
  destruct Hb as (w & Eb & Hw). rewrite Forall_forall in G. destruct (G w Hw) as (G1 & G2 & G3 & G4). rewrite <- Eb. split.
  - exists w. apply read_prim_block; auto. change (2 ^ 32)%N with 4294967296%N. change (2 ^ 32 - 8)%N with 4294967288%N in G3. lia.
  - intros k Hk rows HQ. destruct (prim_block_cut p sz nl w k Hs Hz G1 G3 Hk) as [[kd Hd]|Hd]; rewrite Hd in HQ; discriminate HQ.
Qed.
Print Assumptions C83_column.

(** The second half of [C83_column]'s sentence. *)
Theorem C83_prefix_free :
  forall p sz nl B bufs rowss written B' bufs' rowss' written' b b' more,
  0 < sz -> (N.of_nat sz < 2 ^ 31)%N ->
  (0 < B < 2 ^ 32)%N -> Forall2 (fun b rows => pb_holds b nl rows) bufs rowss ->
  (total_rows rowss <= 2 ^ 32 - 8)%N -> Forall (fit sz) rowss -> pe_column p sz B nl bufs = Ret (written, Ok tt) ->
  (0 < B' < 2 ^ 32)%N -> Forall2 (fun b rows => pb_holds b nl rows) bufs' rowss' ->
  (total_rows rowss' <= 2 ^ 32 - 8)%N -> Forall (fit sz) rowss' -> pe_column p sz B' nl bufs' = Ret (written', Ok tt) ->
  In b written -> In b' written' -> snd b' = snd b ++ more -> more = [].
Proof.
  intros p sz nl B bufs rowss written B' bufs' rowss' written' b b' more Hs Hz HB HH HT HV HR HB' HH' HT' HV' HR' I I' E.
  pose proof (C83_column p sz B nl bufs rowss written Hs Hz HB HH HT HV HR) as F.
  pose proof (C83_column p sz B' nl bufs' rowss' written' Hs Hz HB' HH' HT' HV' HR') as F'.
  rewrite Forall_forall in F, F'. destruct (F b I) as [[rows Hr] _]. destruct (F' b' I') as [_ Hn].
  destruct more as [|x more]; [reflexivity|]. exfalso. apply (Hn (length (snd b)) ltac:(rewrite E, app_length; cbn [length]; lia) rows).
  rewrite E, firstn_app_exact. exact Hr.
Qed.
Print Assumptions C83_prefix_free.

(** So the blocks of a column written one after the other can be taken apart
    again without any index: the next block is the shortest first part that can
    be read. *)
Definition rows_of (m : outcome (result (list (option N)))) : option (list (option N)) :=
  match m with Ret (Ok rows) => Some rows | _ => None end.

(** The first length of at least [k] that can be read. *)
Fixpoint next_block (p : profile) (sz : nat) (nl : bool) (bytes : list N) (k tries : nat) : option (nat * list (option N)) :=
  match tries with
  | O => None
  | S tries' =>
      match rows_of (read_primitive_block p sz nl (firstn k bytes)) with
      | Some rows => Some (k, rows)
      | None => next_block p sz nl bytes (S k) tries'
      end
  end.

Fixpoint scan (p : profile) (sz : nat) (nl : bool) (max : nat) (bytes : list N) : list (list (option N)) :=
  match max with
  | O => []
  | S max' =>
      match next_block p sz nl bytes 0 (S (length bytes)) with
      | Some (k, rows) => rows :: scan p sz nl max' (skipn k bytes)
      | None => []
      end
  end.

Lemma next_block_ok p sz nl block rest rows : read_primitive_block p sz nl block = Ret (Ok rows) ->
  (forall k, k < length block -> forall r, read_primitive_block p sz nl (firstn k block) <> Ret (Ok r)) ->
  forall n k tries, length block = k + n -> n < tries -> next_block p sz nl (block ++ rest) k tries = Some (length block, rows).
Proof.
  intros HR HN. induction n as [|n IH]; intros k tries HL HT; (destruct tries as [|tries]; [lia|]); cbn [next_block].
  - rewrite Nat.add_0_r in HL. rewrite <- HL, firstn_app_exact, HR. reflexivity.
  - rewrite firstn_app. replace (k - length block) with 0 by lia. cbn [firstn]. rewrite app_nil_r.
    destruct (rows_of _) as [r|] eqn:E; [|apply IH; lia]. exfalso. unfold rows_of in E.
    destruct (read_primitive_block p sz nl (firstn k block)) as [[r'|]| |] eqn:E2; try discriminate E. exact (HN k ltac:(lia) r' E2).
Qed.

Lemma scan_ok p sz nl (blocks : list (N * list N)) : 
  Forall (fun b => (exists rows, read_primitive_block p sz nl (snd b) = Ret (Ok rows))
    /\ forall k, k < length (snd b) -> forall rows, read_primitive_block p sz nl (firstn k (snd b)) <> Ret (Ok rows)) blocks ->
  forall ws max, reads_blocks p sz nl blocks ws -> length blocks <= max -> scan p sz nl max (concat (map snd blocks)) = ws.
Proof.
  assert (NIL : read_primitive_block p sz nl [] = Panic PIndex) by reflexivity.
  induction blocks as [|b blocks IH]; intros F ws max RB HM; unfold reads_blocks in RB; destruct ws as [|w ws]; try discriminate RB.
  - destruct max; [reflexivity|]. cbn [map concat scan length next_block firstn]. rewrite NIL. reflexivity.
  - cbn [map] in RB. injection RB as RB1 RB2. inversion F as [|? ? [_ F1] F2]; subst. cbn [length] in HM. destruct max as [|max]; [lia|].
    cbn [map concat scan]. rewrite (next_block_ok p sz nl (snd b) _ w RB1 F1 (length (snd b)) 0) by (rewrite ?app_length; lia).
    f_equal. rewrite skipn_app_exact. apply IH; auto. lia.
Qed.

(** [blocks] are the blocks of [C29_every_column_exact]. *)
Theorem C83_scan :
  forall p sz B nl bufs rowss written blocks,
  0 < sz -> (N.of_nat sz < 2 ^ 31)%N -> (0 < B < 2 ^ 32)%N ->
  Forall2 (fun b rows => pb_holds b nl rows) bufs rowss ->
  (total_rows rowss <= 2 ^ 32 - 8)%N -> Forall (fit sz) rowss ->
  pe_column p sz B nl bufs = Ret (written, Ok tt) -> reads_blocks p sz nl written blocks ->
  forall max, length written <= max -> scan p sz nl max (concat (map snd written)) = blocks.
Proof.
  intros p sz B nl bufs rowss written blocks Hs Hz HB HH HT HV HR RB max HM.
  apply scan_ok; auto. eapply C83_column; eauto.
Qed.
Print Assumptions C83_scan.

(** The bits of [C83_bitmap_refuted], cut after each byte; and a nullable column
    of four-byte values, one block of which is cut after each byte. *)
Example C83_bitmap_witness :
  let bits := [true] ++ repeat false 31 ++ [true] in
  rle_encode rle_new bits = Ret [3; 1; 6; 0; 3; 1]%N
  /\ map (fun k => rle_decode Debug (firstn k [3; 1; 6; 0; 3; 1]%N) [7; 7]%N) [0; 1; 2; 3; 4; 5; 6]
     = [Ret ([7; 7]%N, 0); Panic PIndex; Ret ([0; 7]%N, 1); Panic PIndex; Ret ([0; 7]%N, 1); Panic PIndex; Ret ([0; 32]%N, 2)].
Proof. vm_compute. repeat split. Qed.

Example C83_block_witness :
  let rows := [Some 9; None; Some 258]%N in
  match pe_column_rows Debug 4 8 true [rows] with
  | Ret ([(_, block)], Ok _) =>
      block = [8; 9; 0; 0; 0; 2; 1; 0; 0; 3; 5]%N
      /\ read_primitive_block Debug 4 true block = Ret (Ok rows)
      /\ map (fun k => read_primitive_block Debug 4 true (firstn k block)) (seq 0 11)
         = repeat (Panic PIndex) 9 ++ [Ret Err; Panic PIndex]
  | _ => False end.
Proof. vm_compute. repeat split. Qed.

(** The second column of [C29_every_column_witness], taken apart. *)
Example C83_scan_witness :
  let v (n : N) := Some n in
  let words := [[v 1; v 2; v 3]; [v 4; None; v 5]; [None; v 6; v 7; v 8]; [v 9]; [v 10; None; v 11; None]]%N in
  match pe_column_rows Release 4 6 true words with
  | Ret (written, Ok _) => length written = 3
      /\ scan Release 4 true 9 (concat (map snd written)) = [[v 1; v 2]; [v 3; v 4; None; v 6; v 7; v 8; v 9]; [v 10; None; v 11]]%N
  | _ => False end.
Proof. vm_compute. repeat split. Qed.
