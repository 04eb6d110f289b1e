(** Binary buffers: chunks, and encoding a chunk to a block. *)
From Verif Require Import Base BaseProofs Spec SpecRows SpecBin Varint VarintProofs Buffers Observe BitmapProofs BuffersProofs
  Rle RleProofs RleTrackProofs Offsets OffsetsProofs Sink BinEnc RowsProofs BlockProofs PropsRle.
Open Scope nat_scope.

Definition cbytes (items : list (list N)) : nat := length (concat items).

Lemma cbytes_app a b : cbytes (a ++ b) = cbytes a + cbytes b.
Proof. unfold cbytes. rewrite concat_app, app_length. reflexivity. Qed.
Lemma cbytes_cons v l : cbytes (v :: l) = length v + cbytes l.
Proof. unfold cbytes. cbn [concat]. apply app_length. Qed.

(** ** [fill] *)

Lemma fill_some items : forall m k, fill m items = Some k ->
  k <= length items /\ (m <= N.of_nat (cbytes (firstn k items)))%N
  /\ forall j, j < k -> (N.of_nat (cbytes (firstn j items)) < m)%N.
Proof.
  induction items as [|v items IH]; intros m k H; cbn [fill] in H.
  - destruct (N.eqb_spec m 0) as [->|]; [|discriminate]. injection H as <-. cbn. split; [lia|]. split; [lia|]. intros; lia.
  - destruct (N.eqb_spec m 0) as [->|Hm]; [injection H as <-; cbn; split; [lia|]; split; [lia|]; intros; lia|].
    destruct (fill (m - N.of_nat (length v)) items) as [k'|] eqn:E; [|discriminate]. cbn in H. injection H as <-.
    apply IH in E. destruct E as (E1 & E2 & E3). cbn [length firstn]. rewrite cbytes_cons. split; [lia|]. split; [lia|].
    intros [|j] Hj; [cbn; lia|]. cbn [firstn]. rewrite cbytes_cons. specialize (E3 j ltac:(lia)). lia.
Qed.

Lemma fill_none items : forall m, fill m items = None -> (N.of_nat (cbytes items) < m)%N.
Proof.
  induction items as [|v items IH]; intros m H; cbn [fill] in H.
  - destruct (N.eqb_spec m 0); [discriminate|]. cbn. lia.
  - destruct (N.eqb_spec m 0); [discriminate|]. rewrite cbytes_cons.
    destruct (fill (m - N.of_nat (length v)) items) eqn:E; [discriminate|]. apply IH in E. lia.
Qed.

Lemma fill_unique items m k : k <= length items -> (m <= N.of_nat (cbytes (firstn k items)))%N ->
  (forall j, j < k -> (N.of_nat (cbytes (firstn j items)) < m)%N) -> fill m items = Some k.
Proof.
  intros H1 H2 H3. destruct (fill m items) as [k'|] eqn:E.
  - apply fill_some in E. destruct E as (E1 & E2 & E3). f_equal.
    destruct (Nat.lt_trichotomy k k') as [L|[L|L]]; [specialize (E3 _ L); lia|auto|specialize (H3 _ L); lia].
  - apply fill_none in E. rewrite <- (firstn_skipn k items), cbytes_app in E. lia.
Qed.

Lemma fill_none_iff items m : fill m items = None <-> (N.of_nat (cbytes items) < m)%N.
Proof.
  split; [apply fill_none|]. intros H. destruct (fill m items) as [k|] eqn:E; [|reflexivity].
  apply fill_some in E. destruct E as (_ & E & _). rewrite <- (firstn_skipn k items), cbytes_app in H. lia.
Qed.

Lemma fill_pos items m k : fill m items = Some k -> (0 < m)%N -> 0 < k.
Proof. intros H Hm. apply fill_some in H. destruct H as (_ & H & _). destruct k; [cbn in H; lia|lia]. Qed.

(** ** Chunks *)

Lemma find_offset_ok p items : forall from start m i, (start <= from)%N -> (from + N.of_nat (cbytes items) <= u32_max)%N ->
  find_offset p (running_offsets from items) start m i
  = Ret (match fill (m - (from - start)) items with
         | Some k => Some (i + k, (from + N.of_nat (cbytes (firstn k items)))%N)
         | None => None end).
Proof.
  induction items as [|v items IH]; intros from start m i Hs HL; cbn [running_offsets find_offset].
  - rewrite sub32_ok by exact Hs. rewrite bind_ret. cbn [fill].
    destruct (N.leb_spec m (from - start)); destruct (N.eqb_spec (m - (from - start)) 0); try lia; [|reflexivity].
    cbn. rewrite Nat.add_0_r, N.add_0_r. reflexivity.
  - rewrite cbytes_cons in HL. rewrite sub32_ok by exact Hs. rewrite bind_ret. cbn [fill].
    destruct (N.leb_spec m (from - start)); destruct (N.eqb_spec (m - (from - start)) 0); try lia.
    + cbn. rewrite Nat.add_0_r, N.add_0_r. reflexivity.
    + rewrite IH by lia. replace (m - (from + N.of_nat (length v) - start))%N with (m - (from - start) - N.of_nat (length v))%N by lia.
      destruct (fill _ items) as [k|]; cbn [option_map]; [|reflexivity].
      do 3 f_equal; [lia|]. cbn [firstn]. rewrite cbytes_cons. lia.
Qed.

Lemma skipn_running items : forall s from, s <= length items ->
  skipn s (running_offsets from items) = running_offsets (from + N.of_nat (cbytes (firstn s items))) (skipn s items).
Proof.
  induction items as [|v items IH]; intros [|s] from H; cbn [length] in H; try lia.
  - cbn. rewrite N.add_0_r. reflexivity.
  - cbn [skipn firstn]. cbn. rewrite N.add_0_r. reflexivity.
  - cbn [running_offsets skipn firstn]. rewrite IH by lia. rewrite cbytes_cons. f_equal. lia.
Qed.

Lemma running_idx items i : i <= length items ->
  idx (running_offsets 0 items) i = Ret (N.of_nat (cbytes (firstn i items))).
Proof. intros H. apply idx_some. rewrite running_nth by exact H. f_equal. Qed.

Lemma firstn_skipn_add {A} s k (l : list A) : firstn (s + k) l = firstn s l ++ firstn k (skipn s l).
Proof.
  revert l. induction s as [|s IH]; intros [|x l]; cbn; try reflexivity.
  - destruct k; reflexivity.
  - rewrite IH. reflexivity.
Qed.

(** [chunk] from item [s]: with [q] items that fill [m] bytes, the chunk has
    their data but ends at position [q] of the buffer. *)
Lemma be_chunk_ok p buf items s m : bb_offsets buf = running_offsets 0 items ->
  s <= length items -> (N.of_nat (cbytes items) <= u32_max)%N ->
  be_chunk p buf s m =
    let from := N.of_nat (cbytes (firstn s items)) in
    match fill m (skipn s items) with
    | Some q =>
        let size := N.of_nat (cbytes (firstn q (skipn s items))) in
        let* len := sub64 p (N.of_nat q) (N.of_nat s) in
        Ret (mk_bchunk s q from (from + size) size len)
    | None =>
        let size := N.of_nat (cbytes (skipn s items)) in
        Ret (mk_bchunk s (length items) from (from + size) size (N.of_nat (length items - s)))
    end.
Proof.
  intros HO Hs HL. unfold be_chunk. rewrite HO. cbn zeta. rewrite running_idx by exact Hs. rewrite bind_ret.
  rewrite skipn_running by exact Hs. rewrite N.add_0_l.
  assert (ET : cbytes items = cbytes (firstn s items) + cbytes (skipn s items)) by (rewrite <- cbytes_app, firstn_skipn; reflexivity).
  rewrite find_offset_ok by lia. rewrite bind_ret. rewrite N.sub_diag, N.sub_0_r.
  rewrite running_length. cbn [Nat.sub]. rewrite Nat.sub_0_r.
  destruct (fill m (skipn s items)) as [q|]; cbn [bind].
  - cbn [Nat.add]. rewrite sub32_ok by lia. cbn [bind]. rewrite N.add_comm, N.add_sub. reflexivity.
  - rewrite running_idx by lia. cbn [bind]. rewrite firstn_all, ET, Nat2N.inj_add.
    rewrite sub32_ok by lia. cbn [bind]. rewrite sub64_ok by lia. cbn [bind].
    do 2 f_equal; lia.
Qed.

(** ** Blocks *)

(** The encoded item lengths. *)
Definition lens_bytes (items : list (list N)) : list N :=
  let lens := map (fun v => N.of_nat (length v)) items in
  [N.of_nat (width lens)] ++ firstn (nceil8 (width lens * length lens)) (bp_pack (padded lens) (width lens)).

(** The block with the rows [R] and the further data [extra]. *)
Definition bin_block (nl : bool) (R : list (option (list N))) (extra : list N) : list N :=
  varint_bytes (N.of_nat (bytes_of R + length extra)) ++ concat (somes R) ++ extra ++ lens_bytes (somes R)
  ++ (if nl then validity_bytes (validity_of R) else []).

Lemma item_lens_ok p buf items : bb_offsets buf = running_offsets 0 items -> (N.of_nat (cbytes items) <= u32_max)%N ->
  forall n i, i + n <= length items ->
  item_lens p buf i n = Ret (map (fun v => N.of_nat (length v)) (firstn n (skipn i items))).
Proof.
  intros HO HL. induction n as [|n IH]; intros i Hi; cbn [item_lens]; [reflexivity|].
  destruct (nth_error items i) as [v|] eqn:E; [|apply nth_error_None in E; lia].
  destruct (nth_error_split _ _ E) as (l1 & l2 & EQ & Hl1).
  destruct (bb_item_spec items (concat items) (bb_offsets buf) (bb_validity buf) i v p eq_refl HO E HL)
    as (lo & hi & _ & _ & _ & _ & HI).
  replace (bb_item_len p buf i) with (Ret (N.of_nat (length v))) by (symmetry; exact HI).
  rewrite bind_ret, IH by lia. rewrite bind_ret.
  assert (ES : skipn i items = v :: skipn (S i) items).
  { rewrite EQ, <- Hl1, skipn_app_exact. replace (S (length l1)) with (length (l1 ++ [v])) by (rewrite app_length; cbn; lia).
    replace (l1 ++ v :: l2) with ((l1 ++ [v]) ++ l2) by (rewrite <- app_assoc; reflexivity).
    rewrite skipn_app_exact. reflexivity. }
  rewrite ES. reflexivity.
Qed.

Lemma encode_binary_ok p buf nl items bits s k extra wbits vp rle :
  bb_data buf = concat items -> bb_offsets buf = running_offsets 0 items -> (N.of_nat (cbytes items) <= u32_max)%N ->
  match bb_validity buf with
  | Some bm => nl = true /\ reads_as bm bits /\ valid_window bits vp k wbits /\ (N.of_nat (length wbits) <= 2 ^ 32)%N
  | None => nl = false end ->
  1 <= k <= 128 -> s + k + extra <= length items ->
  let from := N.of_nat (cbytes (firstn s items)) in
  let size := N.of_nat (cbytes (firstn (k + extra) (skipn s items))) in
  exists rle', encode_binary_buffer p buf (mk_bchunk s (s + k) from (from + size) size (N.of_nat k)) vp rle
    = Ret (varint_bytes size ++ concat (firstn (k + extra) (skipn s items)) ++ lens_bytes (firstn k (skipn s items))
             ++ (if nl then validity_bytes wbits else []),
           rle', if nl then (vp + length wbits, vp + length wbits) else (k, 0)).
Proof.
  intros HD HO HL HV Hk Hs from size. unfold encode_binary_buffer. cbn [bc_size bc_start bc_end bc_start_off bc_end_off bc_len].
  set (all := firstn (k + extra) (skipn s items)) in *.
  assert (EI : items = firstn s items ++ all ++ skipn (k + extra) (skipn s items)).
  { unfold all. rewrite firstn_skipn, firstn_skipn. reflexivity. }
  assert (EB : cbytes items = cbytes (firstn s items) + cbytes all + cbytes (skipn (k + extra) (skipn s items))).
  { rewrite EI at 1. rewrite !cbytes_app. lia. }
  unfold u32_max in HL.
  rewrite put_varint_ok by (unfold u64_lim, size; lia). rewrite bind_ret. cbn [app].
  assert (SL : slice (bb_data buf) (N.to_nat from) (N.to_nat (from + size)) = Ret (concat all)).
  { replace (N.to_nat (from + size)) with (cbytes (firstn s items) + cbytes all) by (unfold from, size; lia).
    replace (N.to_nat from) with (cbytes (firstn s items)) by (unfold from; lia).
    rewrite HD, EI, !concat_app.
    assert (F : firstn s (firstn s items ++ all ++ skipn (k + extra) (skipn s items)) = firstn s items) by (rewrite <- EI; reflexivity).
    rewrite F. fold (cbytes (firstn s items)).
    rewrite slice_ok by (rewrite ?app_length; unfold cbytes; lia). f_equal.
    replace (cbytes (firstn s items) + cbytes all - cbytes (firstn s items)) with (cbytes all) by lia.
    unfold cbytes. rewrite skipn_app_exact. apply firstn_app_exact. }
  rewrite SL, bind_ret.
  replace (s + k - s) with k by lia. rewrite (item_lens_ok p buf items HO) by (unfold u32_max; lia). rewrite bind_ret.
  set (lens := map (fun v : list N => N.of_nat (length v)) (firstn k (skipn s items))).
  assert (LL : length lens = k). { unfold lens. rewrite map_length, firstn_length, skipn_length. lia. }
  rewrite off_encode_ok by lia. rewrite bind_ret. cbn [snd]. rewrite Nat2N.id.
  destruct (bb_validity buf) as [bm|].
  - destruct HV as (-> & HR & HW & HWL).
    rewrite (put_from_puts _ _ _ _ _ _ HR HW).
    pose proof (C18_rle_clear rle wbits) as HC. unfold rle_encode at 1 in HC.
    rewrite validity_bytes_ok in HC by exact HWL.
    destruct (rle_puts (rle_clear rle) wbits) as [e1| |] eqn:E1; cbn [bind] in HC |- *; try discriminate.
    cbn [fst snd]. destruct (rle_flush e1) as [e2| |]; cbn [bind] in HC |- *; try discriminate.
    injection HC as <-. exists e2. rewrite <- !app_assoc. reflexivity.
  - subst nl. exists rle. rewrite app_nil_r, <- !app_assoc. reflexivity.
Qed.

(** No items or more than 128 items cannot be encoded. *)
Lemma encode_binary_panics p buf items s end_ q len vp rle :
  bb_data buf = concat items -> bb_offsets buf = running_offsets 0 items -> (N.of_nat (cbytes items) <= u32_max)%N ->
  end_ - s = 0 \/ 128 < end_ - s -> s + (end_ - s) <= length items -> (N.of_nat (end_ - s) < 2 ^ 63)%N ->
  let from := N.of_nat (cbytes (firstn s items)) in
  let size := N.of_nat (cbytes (firstn q (skipn s items))) in
  encode_binary_buffer p buf (mk_bchunk s end_ from (from + size) size len) vp rle = Panic PAssert.
Proof.
  intros HD HO HL Hk Hs Hb from size. unfold encode_binary_buffer. cbn [bc_size bc_start bc_end bc_start_off bc_end_off bc_len].
  assert (EB : cbytes items = cbytes (firstn s items) + cbytes (firstn q (skipn s items)) + cbytes (skipn q (skipn s items))).
  { rewrite <- (firstn_skipn s items) at 1. rewrite <- (firstn_skipn q (skipn s items)) at 1. rewrite !cbytes_app. lia. }
  rewrite put_varint_ok by (unfold u64_lim, size, u32_max in *; lia). rewrite bind_ret.
  rewrite HD. rewrite slice_ok by (fold (cbytes items); unfold from, size; lia). rewrite bind_ret.
  rewrite (item_lens_ok p buf items HO HL) by lia. rewrite bind_ret.
  rewrite off_encode_panics; [reflexivity| |]; rewrite map_length, firstn_length, skipn_length;
    replace (min (end_ - s) (length items - s)) with (end_ - s) by lia; assumption.
Qed.
