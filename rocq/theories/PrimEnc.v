(** Model of /repo/src/store/encoding/raw/primitive_enc.rs

    A value of the element type [T] (i32, i64, u64 or f64) is represented by its
    bit pattern, a number below [256 ^ sz] with [sz = size_of::<T>()] (4 or 8);
    its bytes in memory are little endian, as on every platform the repository
    targets.  [sz] is a parameter of the functions below. *)
From Verif Require Import Base Spec Varint Buffers Rle Sink.
Open Scope nat_scope.

(** The bytes of a value in memory.
    Read by src/store/encoding/raw/primitive_enc.rs:220-225. *)
Fixpoint le_bytes (sz : nat) (v : N) : list N :=
  match sz with
  | O => []
  | S sz' => (v mod 256)%N :: le_bytes sz' (v / 256)%N
  end.

(** primitive_enc.rs:219-226 [to_byte_slice] *)
Definition to_byte_slice (sz : nat) (src : list N) : list N := flat_map (le_bytes sz) src.

(** primitive_enc.rs:36-42.  [encoded_data] is kept as it is reused (but always
    cleared first). *)
Record prim_enc := mk_penc {
  pe_remaining : prim_buf N;
  pe_encoded : list N;         (* encoded_data *)
  pe_bitmap : rle_enc;         (* bitmap_encoder *)
  pe_min : N;                  (* min_block_size *)
  pe_rows : N }.               (* num_rows *)

(** primitive_enc.rs:45-53 *)
Definition pe_new (block_size : N) (nullable : bool) : prim_enc :=
  mk_penc (pb_new nullable) [] rle_new block_size 0.

(** primitive_enc.rs:206-217 [chunk].  [len] is [buffer.len()]. *)
Definition pe_chunk (p : profile) (sz : nat) (len start : nat) (min_size : N) : outcome nat :=
  let s := N.of_nat sz in
  let chunk_len := (min_size / s + (if min_size mod s =? 0 then 0 else 1))%N in
  let* end_ := add64 p (N.of_nat start) chunk_len in
  Ret (if (N.of_nat len <? end_)%N then len else N.to_nat end_).

(** primitive_enc.rs:164-198 [encode_primitive_buffer]: the encoded block, the
    bitmap encoder, and the two fields of [EncodeResult] ([num_rows],
    [last_validity_pos]).  Both callers have [start <= end]. *)
Definition encode_primitive_buffer (sz : nat) (buf : prim_buf N) (start end_ bit_pos : nat) (rle : rle_enc)
  : outcome (list N * rle_enc * (nat * nat)) :=
  let block_len := end_ - start in
  let block_size := sz * block_len in
  let* encoded := put_varint [] (N.of_nat block_size) in
  let* values := slice (pb_values buf) start end_ in
  let encoded := encoded ++ to_byte_slice sz values in
  match pb_validity buf with
  | Some validity =>
      let* r := rle_put_from (rle_clear rle) validity bit_pos block_len in
      let* rle := rle_flush (fst r) in
      Ret (encoded ++ re_out rle, rle, (snd r, snd r))
  | None => Ret (encoded, rle, (block_len, 0))
  end.

(** primitive_enc.rs:98-103 [add_rows] on the counter *)
Definition pe_add_rows (rows : N) (n : nat) : outcome N :=
  if (N.of_nat n <=? u32_max)%N then
    if (rows + N.of_nat n <=? u32_max)%N then Ret (rows + N.of_nat n)%N else Panic PExpect
  else Panic PExpect.

Section Encoder.
Context {S : Type} (wr : sink_fn S) (p : profile) (sz : nat).

(** primitive_enc.rs:55-78 [write_block] and, with the encoder's own buffer,
    80-96 [write_remaining] (the bodies are the same).  Returns the encoder, the
    sink, and [last_validity_pos] unless the sink failed. *)
Definition pe_write (e : prim_enc) (buf : prim_buf N) (start end_ bit_pos : nat) (s : S)
  : outcome (prim_enc * S * result nat) :=
  let* r := encode_primitive_buffer sz buf start end_ bit_pos (pe_bitmap e) in
  let '(encoded, rle, (num_rows, last_validity_pos)) := r in
  let* rows := pe_add_rows (pe_rows e) num_rows in
  let e := mk_penc (pe_remaining e) encoded rle (pe_min e) rows in
  let* row_id := sub32 p rows 1 in
  let w := wr s row_id encoded in
  Ret (e, fst w, match snd w with Ok _ => Ok last_validity_pos | Err => Err end).

(** primitive_enc.rs:80-96 *)
Definition pe_write_remaining (e : prim_enc) (s : S) : outcome (prim_enc * S * result nat) :=
  pe_write e (pe_remaining e) 0 (pb_len (pe_remaining e)) 0 s.

(** Mutation of [self.remaining], src/store/encoding/raw/primitive_enc.rs:119, 129, 139-140. *)
Definition pe_set_remaining (e : prim_enc) (b : prim_buf N) : prim_enc :=
  mk_penc b (pe_encoded e) (pe_bitmap e) (pe_min e) (pe_rows e).

(** primitive_enc.rs:132-150, the [while] loop.  With a positive block size
    every iteration that does not return advances [buf_pos]. *)
Fixpoint pe_loop (fuel : nat) (e : prim_enc) (buffer : prim_buf N) (buf_pos validity_pos : nat) (s : S)
  : outcome (prim_enc * S * result unit) :=
  match fuel with
  | O => NoFuel
  | Datatypes.S fuel' =>
      if buf_pos <? pb_len buffer then
        let* chunk_end := pe_chunk p sz (pb_len buffer) buf_pos (pe_min e) in
        let chunk_size := (chunk_end - buf_pos) * sz in
        if (N.of_nat chunk_size <? pe_min e)%N then
          let* r := pb_append_from (pe_remaining e) buffer buf_pos chunk_end validity_pos in
          Ret (pe_set_remaining e (fst r), s, Ok tt)
        else
          let* w := pe_write e buffer buf_pos chunk_end validity_pos s in
          let '(e, s, res) := w in
          match res with
          | Ok last_validity_pos => pe_loop fuel' e buffer chunk_end last_validity_pos s
          | Err => Ret (e, s, Err)
          end
      else Ret (e, s, Ok tt)
  end.

(** primitive_enc.rs:110-153 [encode].  Lines 114-130 handle a non-empty
    [remaining]; note that line 123 compares a number of items with a number of
    bytes. *)
Definition pe_encode (fuel : nat) (e : prim_enc) (buffer : prim_buf N) (s : S)
  : outcome (prim_enc * S * result unit) :=
  if 0 <? pb_len (pe_remaining e) then
    let remaining_size := N.of_nat (pb_len (pe_remaining e) * sz) in
    let* want := sub64 p (pe_min e) remaining_size in
    let* chunk_end := pe_chunk p sz (pb_len buffer) 0 want in
    let* r := pb_append_from (pe_remaining e) buffer 0 chunk_end 0 in
    let validity_pos := snd r in
    let e := pe_set_remaining e (fst r) in
    if (N.of_nat (pb_len (pe_remaining e)) <? pe_min e)%N then Ret (e, s, Ok tt)
    else
      let* w := pe_write_remaining e s in
      let '(e, s, res) := w in
      match res with
      | Ok _ => pe_loop fuel (pe_set_remaining e (pb_clear (pe_remaining e))) buffer chunk_end validity_pos s
      | Err => Ret (e, s, Err)
      end
  else pe_loop fuel e buffer 0 0 s.

(** primitive_enc.rs:155-161 [flush].  The layout returned is the constant
    [Plain]. *)
Definition pe_flush (e : prim_enc) (s : S) : outcome (prim_enc * S * result unit) :=
  if 0 <? pb_len (pe_remaining e) then
    let* w := pe_write_remaining e s in
    let '(e, s, res) := w in
    Ret (e, s, match res with Ok _ => Ok tt | Err => Err end)
  else Ret (e, s, Ok tt).
End Encoder.
