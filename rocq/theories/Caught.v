(** Model of calls that panic when the panic is caught
    (src/store/indexing_buffer.rs, src/store/encoding/raw/binary_enc.rs,
    src/store/encoding/raw/primitive_enc.rs, src/store/segment_writer.rs).

    A panic unwinds the stack; whatever the call has changed through [&mut self]
    until then stays changed, and a caller that catches the panic (or shares the
    value with a task that panicked) goes on with it.  The other models only say
    that a call panics.  Here every function also has the state it leaves behind;
    the lemmas at the end show that otherwise they are the same functions. *)
From Verif Require Import Base Buffers Sink PrimEnc BinEnc Io Metadata Segment.
Open Scope nat_scope.

(** A state together with how the call ended. *)
Definition caught (St A : Type) : Type := St * outcome A.

(** A part of a call that changes nothing: if it panics, the state is [st]. *)
Definition pure {St A B} (st : St) (m : outcome A) (k : A -> caught St B) : caught St B :=
  match m with Ret a => k a | Panic kind => (st, Panic kind) | NoFuel => (st, NoFuel) end.

(** What is known of a call if its panic is not caught. *)
Definition uncaught {St A B} (f : St -> A -> B) (x : caught St A) : outcome B :=
  match snd x with Ret a => Ret (f (fst x) a) | Panic kind => Panic kind | NoFuel => NoFuel end.

(** * Buffers *)

(** indexing_buffer.rs:52-64 *)
Definition bm_append_at (b : bitmap) (set : bool) : caught bitmap unit :=
  let i := bm_len b / 8 in
  let values := if i =? length (bm_values b)
                then resize (bm_values b) (length (bm_values b) * 2) 0%N
                else bm_values b in
  pure (mk_bitmap values (bm_len b))
    (if set then
       let* mask := idx BIT_MASK (bm_len b mod 8) in
       let* old := idx values i in
       upd values i (N.lor old mask)
     else Ret values)
    (fun values => (mk_bitmap values (bm_len b + 1), Ret tt)).

(** indexing_buffer.rs:66-76 *)
Fixpoint bm_append_from_loop_at (fuel : nat) (dst src : bitmap) (items bit_pos n : nat) : caught bitmap nat :=
  match fuel with
  | O => (dst, NoFuel)
  | S fuel' =>
      if items <? n then
        pure dst (bm_is_set src bit_pos) (fun bit =>
        let r := bm_append_at dst bit in
        pure (fst r) (snd r) (fun _ =>
        bm_append_from_loop_at fuel' (fst r) src (items + b2n bit) (bit_pos + 1) n))
      else (dst, Ret bit_pos)
  end.

(** indexing_buffer.rs:66-76 *)
Definition bm_append_from_at (dst src : bitmap) (start_pos num_of_items : nat) : caught bitmap nat :=
  bm_append_from_loop_at (S (bm_len src)) dst src 0 start_pos num_of_items.

(** indexing_buffer.rs:116-118, 231-233, 359-361 *)
Definition validity_append_at (v : option bitmap) (set : bool) : caught (option bitmap) unit :=
  match v with
  | Some bm => let r := bm_append_at bm set in (Some (fst r), snd r)
  | None => (None, Ret tt)
  end.

(** indexing_buffer.rs:124-127, 238-241, 367-370 *)
Definition validity_append_null_at (v : option bitmap) : caught (option bitmap) unit :=
  match v with
  | Some bm => let r := bm_append_at bm false in (Some (fst r), snd r)
  | None => (None, Panic PExplicit)
  end.

(** indexing_buffer.rs:143-153, 271-280 *)
Definition validity_append_from_at (dst src : option bitmap) (validity_pos num_values : nat) : caught (option bitmap) nat :=
  match src with
  | Some validity_src =>
      match dst with
      | Some validity_dst => let r := bm_append_from_at validity_dst validity_src validity_pos num_values in (Some (fst r), snd r)
      | None => (None, Panic PExpect)
      end
  | None =>
      match dst with
      | None => (None, Ret num_values)
      | Some bm => (Some bm, Panic PAssert)
      end
  end.

(** indexing_buffer.rs:114-119 *)
Definition pb_append_at {T} (b : prim_buf T) (value : T) : caught (prim_buf T) unit :=
  let r := validity_append_at (pb_validity b) true in
  (mk_prim (pb_values b ++ [value]) (fst r), snd r).

(** indexing_buffer.rs:123-128 *)
Definition pb_append_null_at {T} (b : prim_buf T) : caught (prim_buf T) unit :=
  let r := validity_append_null_at (pb_validity b) in
  (mk_prim (pb_values b) (fst r), snd r).

(** indexing_buffer.rs:130-154 *)
Definition pb_append_from_at {T} (b buf : prim_buf T) (start end_ validity_pos : nat) : caught (prim_buf T) nat :=
  pure b (slice (pb_values buf) start end_) (fun chunk =>
  let values := pb_values b ++ chunk in
  if (N.of_nat (length values) <? u32_max)%N then
    let r := validity_append_from_at (pb_validity b) (pb_validity buf) validity_pos (end_ - start) in
    (mk_prim values (fst r), snd r)
  else (mk_prim values (pb_validity b), Panic PAssert)).

(** indexing_buffer.rs:227-234 *)
Definition bb_append_at (b : bin_buf) (value : list N) : caught bin_buf unit :=
  let data := bb_data b ++ value in
  if (N.of_nat (length data) <=? u32_max)%N then
    let r := validity_append_at (bb_validity b) true in
    (mk_bin data (bb_offsets b ++ [N.of_nat (length data)]) (fst r), snd r)
  else (mk_bin data (bb_offsets b) (bb_validity b), Panic PExpect).

(** indexing_buffer.rs:237-242 *)
Definition bb_append_null_at (b : bin_buf) : caught bin_buf unit :=
  let r := validity_append_null_at (bb_validity b) in
  (mk_bin (bb_data b) (bb_offsets b) (fst r), snd r).

(** indexing_buffer.rs:261-264 *)
Fixpoint bb_push_offsets_at (p : profile) (buf : bin_buf) (i count : nat) (last : N) (offsets : list N) : caught (list N) unit :=
  match count with
  | O => (offsets, Ret tt)
  | S count' =>
      pure offsets (bb_item_len p buf i) (fun len =>
      pure offsets (add32 p last len) (fun last =>
      bb_push_offsets_at p buf (S i) count' last (offsets ++ [last])))
  end.

(** indexing_buffer.rs:248-281 *)
Definition bb_append_from_at (p : profile) (b buf : bin_buf) (start end_ validity_pos : nat) : caught bin_buf nat :=
  pure b (idx (bb_offsets buf) start) (fun start_offset =>
  pure b (idx (bb_offsets buf) end_) (fun end_offset =>
  pure b (sub64 p (N.of_nat end_) (N.of_nat start)) (fun chunk_len =>
  let r := bb_push_offsets_at p buf start (end_ - start) (last (bb_offsets b) 0%N) (bb_offsets b) in
  let b1 := mk_bin (bb_data b) (fst r) (bb_validity b) in
  pure b1 (snd r) (fun _ =>
  pure b1 (slice (bb_data buf) (N.to_nat start_offset) (N.to_nat end_offset)) (fun chunk =>
  let data := bb_data b ++ chunk in
  if (N.of_nat (length data) <? u32_max)%N then
    let v := validity_append_from_at (bb_validity b) (bb_validity buf) validity_pos (N.to_nat chunk_len) in
    (mk_bin data (fst r) (fst v), snd v)
  else (mk_bin data (fst r) (bb_validity b), Panic PAssert)))))).

(** indexing_buffer.rs:357-363 *)
Definition ob_append_at (b : bool_buf) (value : bool) : caught bool_buf unit :=
  let r := bm_append_at (ob_values b) value in
  let b1 := mk_boolb (fst r) (ob_validity b) (ob_len b) in
  pure b1 (snd r) (fun _ =>
  let v := validity_append_at (ob_validity b) true in
  let b2 := mk_boolb (fst r) (fst v) (ob_len b) in
  pure b2 (snd v) (fun _ => (mk_boolb (fst r) (fst v) (ob_len b + 1), Ret tt))).

(** indexing_buffer.rs:366-372 *)
Definition ob_append_null_at (b : bool_buf) : caught bool_buf unit :=
  let v := validity_append_null_at (ob_validity b) in
  pure (mk_boolb (ob_values b) (fst v) (ob_len b)) (snd v) (fun _ => (mk_boolb (ob_values b) (fst v) (ob_len b + 1), Ret tt)).

(** * The binary encoder *)

Section Binary.
Context {S : Type} (wr : sink_fn S) (p : profile).

(** binary_enc.rs:61-84 and 95-111.  Simplified: if [encode_binary_buffer]
    panics, [encoded_data], [offset_deltas] and [bitmap_encoder] may hold part of
    the block; all three are cleared before they are used (lines 188, 193, 205)
    and the model keeps what they held before. *)
Definition be_write_at (e : bin_enc) (buf : bin_buf) (c : bin_chunk) (bit_pos : nat) (s : S) : caught (bin_enc * S) (result nat) :=
  pure (e, s) (encode_binary_buffer p buf c bit_pos (be_bitmap e)) (fun r =>
  let '(encoded, rle, (num_rows, last_validity_pos)) := r in
  let e1 := mk_benc (be_remaining e) encoded rle (be_min e) (be_rows e) in
  pure (e1, s) (be_add_rows (be_rows e) num_rows) (fun rows =>
  let e2 := mk_benc (be_remaining e) encoded rle (be_min e) rows in
  pure (e2, s) (sub32 p rows 1) (fun row_id =>
  let w := wr s row_id encoded in
  ((e2, fst w), Ret (match snd w with Ok _ => Ok last_validity_pos | Err => Err end))))).

(** binary_enc.rs:86-112 *)
Definition be_write_remaining_at (e : bin_enc) (s : S) : caught (bin_enc * S) (result nat) :=
  let offsets := bb_offsets (be_remaining e) in
  pure (e, s) (idx offsets (length offsets - 1)) (fun end_offset =>
  let c := mk_bchunk 0 (length offsets - 1) 0 end_offset end_offset (N.of_nat (bb_len (be_remaining e))) in
  be_write_at e (be_remaining e) c 0 s).

(** binary_enc.rs:147-159 *)
Fixpoint be_loop_at (fuel : nat) (e : bin_enc) (buffer : bin_buf) (buf_pos validity_pos : nat) (s : S) : caught (bin_enc * S) (result unit) :=
  match fuel with
  | O => ((e, s), NoFuel)
  | Datatypes.S fuel' =>
      if buf_pos <? length (bb_offsets buffer) then
        pure (e, s) (be_chunk p buffer buf_pos (be_min e)) (fun c =>
        if (bc_size c <? be_min e)%N then
          let r := bb_append_from_at p (be_remaining e) buffer (bc_start c) (bc_end c) validity_pos in
          let e1 := be_set_remaining e (fst r) in
          pure (e1, s) (snd r) (fun _ => ((e1, s), Ret (Ok tt)))
        else
          let w := be_write_at e buffer c validity_pos s in
          pure (fst w) (snd w) (fun res =>
          match res with
          | Ok last_validity_pos => be_loop_at fuel' (fst (fst w)) buffer (bc_end c) last_validity_pos (snd (fst w))
          | Err => (fst w, Ret Err)
          end))
      else ((e, s), Ret (Ok tt))
  end.

(** binary_enc.rs:124-162 *)
Definition be_encode_at (fuel : nat) (e : bin_enc) (buffer : bin_buf) (s : S) : caught (bin_enc * S) (result unit) :=
  if 0 <? bb_len (be_remaining e) then
    pure (e, s) (sub64 p (be_min e) (N.of_nat (length (bb_data (be_remaining e))))) (fun want =>
    pure (e, s) (be_chunk p buffer 0 want) (fun c =>
    let r := bb_append_from_at p (be_remaining e) buffer (bc_start c) (bc_end c) 0 in
    let e1 := be_set_remaining e (fst r) in
    pure (e1, s) (snd r) (fun validity_pos =>
    if (N.of_nat (length (bb_data (be_remaining e1))) <? be_min e1)%N then ((e1, s), Ret (Ok tt))
    else
      let w := be_write_remaining_at e1 s in
      pure (fst w) (snd w) (fun res =>
      match res with
      | Ok _ => let e2 := fst (fst w) in be_loop_at fuel (be_set_remaining e2 (bb_clear (be_remaining e2))) buffer (bc_end c) validity_pos (snd (fst w))
      | Err => (fst w, Ret Err)
      end))))
  else be_loop_at fuel e buffer 0 0 s.

(** binary_enc.rs:164-170 *)
Definition be_flush_at (e : bin_enc) (s : S) : caught (bin_enc * S) (result unit) :=
  if 0 <? bb_len (be_remaining e) then
    let w := be_write_remaining_at e s in
    pure (fst w) (snd w) (fun res => (fst w, Ret (match res with Ok _ => Ok tt | Err => Err end)))
  else ((e, s), Ret (Ok tt)).

(** binary_enc.rs:124-162, snappy_enc.rs:31-34 *)
Definition bin_encode_at (e : bin_encoder) (buffer : bin_buf) (s : S) : caught (bin_encoder * S) (result unit) :=
  match e with
  | RawEnc e => let r := be_encode_at (length (bb_offsets buffer)) e buffer s in ((RawEnc (fst (fst r)), snd (fst r)), snd r)
  | SnappyEnc => let w := wr s 43243%N snappy_data in ((SnappyEnc, fst w), Ret (snd w))
  end.

(** binary_enc.rs:164-170, snappy_enc.rs:36-38 *)
Definition bin_flush_at (e : bin_encoder) (s : S) : caught (bin_encoder * S) (result encoder_layout) :=
  match e with
  | RawEnc e =>
      let r := be_flush_at e s in
      pure (RawEnc (fst (fst r)), snd (fst r)) (snd r) (fun res =>
      ((RawEnc (fst (fst r)), snd (fst r)), Ret (match res with Ok _ => Ok EPlain | Err => Err end)))
  | SnappyEnc => ((SnappyEnc, s), Ret (Ok ESnappy))
  end.
End Binary.

(** * The fixed-width encoder *)

Section Fixed.
Context {S : Type} (wr : sink_fn S) (p : profile) (sz : nat).

(** primitive_enc.rs:55-78 and 80-96; simplified as [be_write_at]. *)
Definition pe_write_at (e : prim_enc) (buf : prim_buf N) (start end_ bit_pos : nat) (s : S) : caught (prim_enc * S) (result nat) :=
  pure (e, s) (encode_primitive_buffer sz buf start end_ bit_pos (pe_bitmap e)) (fun r =>
  let '(encoded, rle, (num_rows, last_validity_pos)) := r in
  let e1 := mk_penc (pe_remaining e) encoded rle (pe_min e) (pe_rows e) in
  pure (e1, s) (pe_add_rows (pe_rows e) num_rows) (fun rows =>
  let e2 := mk_penc (pe_remaining e) encoded rle (pe_min e) rows in
  pure (e2, s) (sub32 p rows 1) (fun row_id =>
  let w := wr s row_id encoded in
  ((e2, fst w), Ret (match snd w with Ok _ => Ok last_validity_pos | Err => Err end))))).

(** primitive_enc.rs:80-96 *)
Definition pe_write_remaining_at (e : prim_enc) (s : S) : caught (prim_enc * S) (result nat) :=
  pe_write_at e (pe_remaining e) 0 (pb_len (pe_remaining e)) 0 s.

(** primitive_enc.rs:132-150 *)
Fixpoint pe_loop_at (fuel : nat) (e : prim_enc) (buffer : prim_buf N) (buf_pos validity_pos : nat) (s : S) : caught (prim_enc * S) (result unit) :=
  match fuel with
  | O => ((e, s), NoFuel)
  | Datatypes.S fuel' =>
      if buf_pos <? pb_len buffer then
        pure (e, s) (pe_chunk p sz (pb_len buffer) buf_pos (pe_min e)) (fun chunk_end =>
        if (N.of_nat ((chunk_end - buf_pos) * sz) <? pe_min e)%N then
          let r := pb_append_from_at (pe_remaining e) buffer buf_pos chunk_end validity_pos in
          let e1 := pe_set_remaining e (fst r) in
          pure (e1, s) (snd r) (fun _ => ((e1, s), Ret (Ok tt)))
        else
          let w := pe_write_at e buffer buf_pos chunk_end validity_pos s in
          pure (fst w) (snd w) (fun res =>
          match res with
          | Ok last_validity_pos => pe_loop_at fuel' (fst (fst w)) buffer chunk_end last_validity_pos (snd (fst w))
          | Err => (fst w, Ret Err)
          end))
      else ((e, s), Ret (Ok tt))
  end.

(** primitive_enc.rs:110-153 *)
Definition pe_encode_at (fuel : nat) (e : prim_enc) (buffer : prim_buf N) (s : S) : caught (prim_enc * S) (result unit) :=
  if 0 <? pb_len (pe_remaining e) then
    pure (e, s) (sub64 p (pe_min e) (N.of_nat (pb_len (pe_remaining e) * sz))) (fun want =>
    pure (e, s) (pe_chunk p sz (pb_len buffer) 0 want) (fun chunk_end =>
    let r := pb_append_from_at (pe_remaining e) buffer 0 chunk_end 0 in
    let e1 := pe_set_remaining e (fst r) in
    pure (e1, s) (snd r) (fun validity_pos =>
    if (N.of_nat (pb_len (pe_remaining e1)) <? pe_min e1)%N then ((e1, s), Ret (Ok tt))
    else
      let w := pe_write_remaining_at e1 s in
      pure (fst w) (snd w) (fun res =>
      match res with
      | Ok _ => let e2 := fst (fst w) in pe_loop_at fuel (pe_set_remaining e2 (pb_clear (pe_remaining e2))) buffer chunk_end validity_pos (snd (fst w))
      | Err => (fst w, Ret Err)
      end))))
  else pe_loop_at fuel e buffer 0 0 s.

(** primitive_enc.rs:155-161 *)
Definition pe_flush_at (e : prim_enc) (s : S) : caught (prim_enc * S) (result unit) :=
  if 0 <? pb_len (pe_remaining e) then
    let w := pe_write_remaining_at e s in
    pure (fst w) (snd w) (fun res => (fst w, Ret (match res with Ok _ => Ok tt | Err => Err end)))
  else ((e, s), Ret (Ok tt)).
End Fixed.

(** * Columns of a segment *)

(** segment_writer.rs:270-278 *)
Definition column_write_at (p : profile) (w : world) (sg : segment) (cw : column_writer) (buf : bin_buf)
  : caught (world * segment * column_writer) (result unit) :=
  let r := bin_encode_at sink_write p (cw_encoder cw) buf (w, sg_data sg, sg_block_index sg) in
  let '(e, (w1, dt, bi)) := fst r in
  ((w1, mksegment dt (sg_index sg) bi (sg_meta sg), mkcw (cw_info cw) e), snd r).

(** segment_writer.rs:281-328 *)
Definition column_close_at (p : profile) (w : world) (sg : segment) (cw : column_writer)
  : caught (world * segment * column_writer) (result unit) :=
  let r := bin_flush_at sink_write p (cw_encoder cw) (w, sg_data sg, sg_block_index sg) in
  let '(e, (w1, dt, bi)) := fst r in
  let cw1 := mkcw (cw_info cw) e in
  let sg1 := mksegment dt (sg_index sg) bi (sg_meta sg) in
  pure (w1, sg1, cw1) (snd r) (fun res =>
  match res with
  | Err => ((w1, sg1, cw1), Ret Err)
  | Ok encoder_layout =>
      match md_segment_meta (sg_meta sg) with
      | None => ((w1, sg1, cw1), Panic PExpect)
      | Some sm =>
          let name := ci_name (cw_info cw) in
          let sm1 := mksmeta (sm_segment_id sm) (sm_database_name sm) (sm_table_name sm) (sm_shard_id sm)
                             (sm_compressed_size sm) (sm_uncompressed_size sm) (sm_num_rows sm)
                             (hm_insert name (column_meta_of (cw_info cw)) (sm_columns_meta sm)) in
          let meta := mkmeta (Some sm1) (hm_insert name (mkclayout (Some (bi_flush bi)) None (Some encoder_layout)) (md_columns_layout (sg_meta sg))) in
          ((w1, mksegment dt (sg_index sg) bi meta, cw1), Ret (Ok tt))
      end
  end).

(** * The same functions *)


Lemma uncaught_pure {St A B C} (f : St -> B -> C) st (m : outcome A) k : uncaught f (pure st m k) = let* a := m in uncaught f (k a).
Proof. destruct m; reflexivity. Qed.

Lemma bm_append_same b x : bm_append b x = uncaught (fun b _ => b) (bm_append_at b x).
Proof. unfold bm_append, bm_append_at. cbn zeta. rewrite uncaught_pure. reflexivity. Qed.

Lemma bind_uncaught {St A B C} (f : St -> A -> B) (x : caught St A) (k : B -> outcome C) :
  bind (uncaught f x) k = let* a := snd x in k (f (fst x) a).
Proof. unfold uncaught. destruct (snd x); reflexivity. Qed.

Lemma bm_append_from_loop_same src n fuel : forall dst items bit_pos,
  bm_append_from_loop fuel dst src items bit_pos n = uncaught pair (bm_append_from_loop_at fuel dst src items bit_pos n).
Proof.
  induction fuel as [|fuel IH]; intros dst items bit_pos; [reflexivity|]. cbn [bm_append_from_loop bm_append_from_loop_at].
  destruct (items <? n); [|reflexivity]. rewrite uncaught_pure. destruct (bm_is_set src bit_pos) as [bit|k|]; [|reflexivity..]. cbn [bind].
  rewrite uncaught_pure, bm_append_same, bind_uncaught. destruct (snd (bm_append_at dst bit)) as [[]|k|]; [|reflexivity..]. cbn [bind]. apply IH.
Qed.

Lemma validity_append_same v x : validity_append v x = uncaught (fun v _ => v) (validity_append_at v x).
Proof. destruct v as [bm|]; [|reflexivity]. unfold validity_append, validity_append_at. rewrite bm_append_same, bind_uncaught. unfold uncaught. cbn [fst snd]. destruct (snd (bm_append_at bm x)); reflexivity. Qed.

Lemma validity_append_null_same v : validity_append_null v = uncaught (fun v _ => v) (validity_append_null_at v).
Proof. destruct v as [bm|]; [|reflexivity]. unfold validity_append_null, validity_append_null_at. rewrite bm_append_same, bind_uncaught. unfold uncaught. cbn [fst snd]. destruct (snd (bm_append_at bm false)); reflexivity. Qed.

Lemma validity_append_from_same dst src pos n : validity_append_from dst src pos n = uncaught pair (validity_append_from_at dst src pos n).
Proof.
  destruct src as [src|], dst as [dst|]; try reflexivity. unfold validity_append_from, validity_append_from_at, bm_append_from. rewrite bm_append_from_loop_same, bind_uncaught.
  unfold uncaught, bm_append_from_at. cbn [fst snd]. destruct (snd _) as [n'|k|]; reflexivity.
Qed.

Lemma pb_append_same {T} (b : prim_buf T) v : pb_append b v = uncaught (fun b _ => b) (pb_append_at b v).
Proof. unfold pb_append, pb_append_at. rewrite validity_append_same, bind_uncaught. unfold uncaught. cbn [fst snd]. destruct (snd _); reflexivity. Qed.

Lemma pb_append_null_same {T} (b : prim_buf T) : pb_append_null b = uncaught (fun b _ => b) (pb_append_null_at b).
Proof. unfold pb_append_null, pb_append_null_at. rewrite validity_append_null_same, bind_uncaught. unfold uncaught. cbn [fst snd]. destruct (snd _); reflexivity. Qed.

Lemma pb_append_from_same {T} (b buf : prim_buf T) s e pos : pb_append_from b buf s e pos = uncaught pair (pb_append_from_at b buf s e pos).
Proof.
  unfold pb_append_from, pb_append_from_at. rewrite uncaught_pure. destruct (slice (pb_values buf) s e) as [chunk|k|]; [|reflexivity..]. cbn [bind].
  destruct (_ <? u32_max)%N; [|reflexivity]. rewrite validity_append_from_same, bind_uncaught. unfold uncaught. cbn [fst snd]. destruct (snd _); reflexivity.
Qed.

Lemma bb_append_same b v : bb_append b v = uncaught (fun b _ => b) (bb_append_at b v).
Proof.
  unfold bb_append, bb_append_at. destruct (_ <=? u32_max)%N; [|reflexivity]. rewrite validity_append_same, bind_uncaught.
  unfold uncaught. cbn [fst snd]. destruct (snd _); reflexivity.
Qed.

Lemma bb_append_null_same b : bb_append_null b = uncaught (fun b _ => b) (bb_append_null_at b).
Proof. unfold bb_append_null, bb_append_null_at. rewrite validity_append_null_same, bind_uncaught. unfold uncaught. cbn [fst snd]. destruct (snd _); reflexivity. Qed.

Lemma bb_push_offsets_same p buf count : forall i last offsets,
  bb_push_offsets p buf i count last offsets = uncaught (fun o _ => o) (bb_push_offsets_at p buf i count last offsets).
Proof.
  induction count as [|count IH]; intros i last offsets; [reflexivity|]. cbn [bb_push_offsets bb_push_offsets_at].
  rewrite uncaught_pure. destruct (bb_item_len p buf i) as [len|k|]; [|reflexivity..]. cbn [bind]. rewrite uncaught_pure.
  destruct (add32 p last len) as [l|k|]; [|reflexivity..]. cbn [bind]. apply IH.
Qed.

Lemma bb_append_from_same p b buf s e pos : bb_append_from p b buf s e pos = uncaught pair (bb_append_from_at p b buf s e pos).
Proof.
  unfold bb_append_from, bb_append_from_at. rewrite uncaught_pure. destruct (idx (bb_offsets buf) s) as [so|k|]; [|reflexivity..]. cbn [bind].
  rewrite uncaught_pure. destruct (idx (bb_offsets buf) e) as [eo|k|]; [|reflexivity..]. cbn [bind].
  rewrite uncaught_pure. destruct (sub64 p _ _) as [cl|k|]; [|reflexivity..]. cbn [bind]. cbn zeta.
  rewrite uncaught_pure, bb_push_offsets_same, bind_uncaught. destruct (snd (bb_push_offsets_at p buf s (e - s) _ _)) as [[]|k|]; [|reflexivity..]. cbn [bind].
  rewrite uncaught_pure. destruct (slice (bb_data buf) _ _) as [chunk|k|]; [|reflexivity..]. cbn [bind].
  destruct (_ <? u32_max)%N; [|reflexivity]. rewrite validity_append_from_same, bind_uncaught. unfold uncaught. cbn [fst snd]. destruct (snd _); reflexivity.
Qed.

Lemma ob_append_same b v : ob_append b v = uncaught (fun b _ => b) (ob_append_at b v).
Proof.
  unfold ob_append, ob_append_at. cbn zeta. rewrite uncaught_pure, bm_append_same, bind_uncaught. destruct (snd (bm_append_at _ v)) as [[]|k|]; [|reflexivity..]. cbn [bind].
  rewrite uncaught_pure, validity_append_same, bind_uncaught. destruct (snd (validity_append_at _ true)) as [[]|k|]; reflexivity.
Qed.

Lemma ob_append_null_same b : ob_append_null b = uncaught (fun b _ => b) (ob_append_null_at b).
Proof.
  unfold ob_append_null, ob_append_null_at. cbn zeta. rewrite uncaught_pure, validity_append_null_same, bind_uncaught. destruct (snd (validity_append_null_at _)) as [[]|k|]; reflexivity.
Qed.

(** What is known of a call to an encoder. *)
Definition known {E S A} (x : E * S) (a : A) : E * S * A := (fst x, snd x, a).

Section BinarySame.
Context {S : Type} (wr : sink_fn S) (p : profile).

Lemma be_write_same e buf c pos s : be_write wr p e buf c pos s = uncaught known (be_write_at wr p e buf c pos s).
Proof.
  unfold be_write, be_write_at. rewrite uncaught_pure. destruct (encode_binary_buffer p buf c pos (be_bitmap e)) as [[[enc rle] [n lv]]|k|]; [|reflexivity..]. cbn [bind].
  rewrite uncaught_pure. destruct (be_add_rows (be_rows e) n) as [rows|k|]; [|reflexivity..]. cbn [bind].
  rewrite uncaught_pure. destruct (sub32 p rows 1) as [id|k|]; reflexivity.
Qed.

Lemma be_write_remaining_same e s : be_write_remaining wr p e s = uncaught known (be_write_remaining_at wr p e s).
Proof.
  unfold be_write_remaining, be_write_remaining_at. cbn zeta. rewrite uncaught_pure. destruct (idx _ _) as [o|k|]; [|reflexivity..]. cbn [bind]. apply be_write_same.
Qed.

Lemma be_loop_same buffer fuel : forall e pos vpos s, be_loop wr p fuel e buffer pos vpos s = uncaught known (be_loop_at wr p fuel e buffer pos vpos s).
Proof.
  induction fuel as [|fuel IH]; intros e pos vpos s; [reflexivity|]. cbn [be_loop be_loop_at]. destruct (pos <? length (bb_offsets buffer)); [|reflexivity].
  rewrite uncaught_pure. destruct (be_chunk p buffer pos (be_min e)) as [c|k|]; [|reflexivity..]. cbn [bind]. destruct (bc_size c <? be_min e)%N.
  - cbn zeta. rewrite uncaught_pure, bb_append_from_same, bind_uncaught. destruct (snd (bb_append_from_at _ _ _ _ _ _)); reflexivity.
  - cbn zeta. rewrite uncaught_pure, be_write_same, bind_uncaught. destruct (snd (be_write_at wr p e buffer c vpos s)) as [[lv|]|k|]; [apply IH|reflexivity..].
Qed.

Lemma be_encode_same fuel e buffer s : be_encode wr p fuel e buffer s = uncaught known (be_encode_at wr p fuel e buffer s).
Proof.
  unfold be_encode, be_encode_at. destruct (0 <? bb_len (be_remaining e)); [|apply be_loop_same]. cbn zeta.
  rewrite uncaught_pure. destruct (sub64 p _ _) as [want|k|]; [|reflexivity..]. cbn [bind].
  rewrite uncaught_pure. destruct (be_chunk p buffer 0 want) as [c|k|]; [|reflexivity..]. cbn [bind].
  rewrite uncaught_pure, bb_append_from_same, bind_uncaught. destruct (snd (bb_append_from_at _ _ _ _ _ _)) as [vp|k|]; [|reflexivity..]. cbn [bind fst snd].
  destruct (_ <? _)%N; [reflexivity|]. rewrite uncaught_pure, be_write_remaining_same, bind_uncaught.
  destruct (snd (be_write_remaining_at _ _ _ _)) as [[lv|]|k|]; [apply be_loop_same|reflexivity..].
Qed.

Lemma be_flush_same e s : be_flush wr p e s = uncaught known (be_flush_at wr p e s).
Proof.
  unfold be_flush, be_flush_at. destruct (0 <? bb_len (be_remaining e)); [|reflexivity]. cbn zeta.
  rewrite uncaught_pure, be_write_remaining_same, bind_uncaught. destruct (snd (be_write_remaining_at _ _ _ _)) as [[lv|]|k|]; reflexivity.
Qed.

Lemma bin_encode_same e buffer s : bin_encode wr p e buffer s = uncaught known (bin_encode_at wr p e buffer s).
Proof. destruct e as [e|]; [|reflexivity]. unfold bin_encode, bin_encode_at. cbn zeta. rewrite be_encode_same, bind_uncaught. unfold uncaught. cbn [fst snd]. destruct (snd _); reflexivity. Qed.

Lemma bin_flush_same e s : bin_flush wr p e s = uncaught known (bin_flush_at wr p e s).
Proof. destruct e as [e|]; [|reflexivity]. unfold bin_flush, bin_flush_at. cbn zeta. rewrite be_flush_same, bind_uncaught, uncaught_pure. destruct (snd _); reflexivity. Qed.
End BinarySame.

Section FixedSame.
Context {S : Type} (wr : sink_fn S) (p : profile) (sz : nat).

Lemma pe_write_same e buf start end_ pos s : pe_write wr p sz e buf start end_ pos s = uncaught known (pe_write_at wr p sz e buf start end_ pos s).
Proof.
  unfold pe_write, pe_write_at. rewrite uncaught_pure. destruct (encode_primitive_buffer sz buf start end_ pos (pe_bitmap e)) as [[[enc rle] [n lv]]|k|]; [|reflexivity..]. cbn [bind].
  rewrite uncaught_pure. destruct (pe_add_rows (pe_rows e) n) as [rows|k|]; [|reflexivity..]. cbn [bind].
  rewrite uncaught_pure. destruct (sub32 p rows 1) as [id|k|]; reflexivity.
Qed.

Lemma pe_loop_same buffer fuel : forall e pos vpos s, pe_loop wr p sz fuel e buffer pos vpos s = uncaught known (pe_loop_at wr p sz fuel e buffer pos vpos s).
Proof.
  induction fuel as [|fuel IH]; intros e pos vpos s; [reflexivity|]. cbn [pe_loop pe_loop_at]. destruct (pos <? pb_len buffer); [|reflexivity].
  rewrite uncaught_pure. destruct (pe_chunk p sz (pb_len buffer) pos (pe_min e)) as [c|k|]; [|reflexivity..]. cbn [bind]. cbn zeta. destruct (_ <? pe_min e)%N.
  - rewrite uncaught_pure, pb_append_from_same, bind_uncaught. destruct (snd (pb_append_from_at _ _ _ _ _)); reflexivity.
  - rewrite uncaught_pure, pe_write_same, bind_uncaught. destruct (snd (pe_write_at wr p sz e buffer pos c vpos s)) as [[lv|]|k|]; [apply IH|reflexivity..].
Qed.

Lemma pe_encode_same fuel e buffer s : pe_encode wr p sz fuel e buffer s = uncaught known (pe_encode_at wr p sz fuel e buffer s).
Proof.
  unfold pe_encode, pe_encode_at. destruct (0 <? pb_len (pe_remaining e)); [|apply pe_loop_same]. cbn zeta.
  rewrite uncaught_pure. destruct (sub64 p _ _) as [want|k|]; [|reflexivity..]. cbn [bind].
  rewrite uncaught_pure. destruct (pe_chunk p sz (pb_len buffer) 0 want) as [c|k|]; [|reflexivity..]. cbn [bind].
  rewrite uncaught_pure, pb_append_from_same, bind_uncaught. destruct (snd (pb_append_from_at _ _ _ _ _)) as [vp|k|]; [|reflexivity..]. cbn [bind fst snd].
  destruct (_ <? _)%N; [reflexivity|]. unfold pe_write_remaining, pe_write_remaining_at. rewrite uncaught_pure, pe_write_same, bind_uncaught.
  destruct (snd (pe_write_at _ _ _ _ _ _ _ _ _)) as [[lv|]|k|]; [apply pe_loop_same|reflexivity..].
Qed.

Lemma pe_flush_same e s : pe_flush wr p sz e s = uncaught known (pe_flush_at wr p sz e s).
Proof.
  unfold pe_flush, pe_flush_at. destruct (0 <? pb_len (pe_remaining e)); [|reflexivity]. cbn zeta. unfold pe_write_remaining, pe_write_remaining_at.
  rewrite uncaught_pure, pe_write_same, bind_uncaught. destruct (snd (pe_write_at _ _ _ _ _ _ _ _ _)) as [[lv|]|k|]; reflexivity.
Qed.
End FixedSame.

Lemma column_write_same p w sg cw b : column_write p w sg cw b = uncaught known (column_write_at p w sg cw b).
Proof.
  unfold column_write, column_write_at. rewrite bin_encode_same, bind_uncaught. cbn zeta. destruct (bin_encode_at _ _ _ _ _) as [[e [[w1 dt] bi]] r]. cbn [fst snd known]. destruct r; reflexivity.
Qed.

Lemma column_close_same p w sg cw : column_close p w sg cw = uncaught known (column_close_at p w sg cw).
Proof.
  unfold column_close, column_close_at. rewrite bin_flush_same, bind_uncaught. cbn zeta. destruct (bin_flush_at _ _ _ _) as [[e [[w1 dt] bi]] r]. cbn [fst snd known].
  rewrite uncaught_pure. destruct r as [[lay|]|k|]; [|reflexivity..]. cbn [bind]. destruct (md_segment_meta (sg_meta sg)); reflexivity.
Qed.
