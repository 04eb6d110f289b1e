(** Model of /repo/src/store/encoding/raw/binary_enc.rs

    Positions in the buffer are [nat], offsets and sizes are [N] (u32).  The
    [len] of a chunk is [N] as well: the subtraction that computes it may wrap. *)
From Verif Require Import Base Spec Varint Buffers Rle Offsets Sink.
Open Scope nat_scope.

(** binary_enc.rs:222-230 *)
Record bin_chunk := mk_bchunk {
  bc_start : nat; bc_end : nat; bc_start_off : N; bc_end_off : N; bc_size : N; bc_len : N }.

(** binary_enc.rs:235-237: [find_position] (crate itertools) on the offsets from
    the start position on: the first one at least [min_size] after
    [start_offset], with its index, counted from the start position. *)
Fixpoint find_offset (p : profile) (offsets : list N) (start_offset min_size : N) (i : nat)
  : outcome (option (nat * N)) :=
  match offsets with
  | [] => Ret None
  | o :: rest =>
      let* d := sub32 p o start_offset in
      if (min_size <=? d)%N then Ret (Some (i, o)) else find_offset p rest start_offset min_size (S i)
  end.

(** binary_enc.rs:232-255 [chunk] *)
Definition be_chunk (p : profile) (buf : bin_buf) (start : nat) (min_size : N) : outcome bin_chunk :=
  let offsets := bb_offsets buf in
  let* start_offset := idx offsets start in
  let* found := find_offset p (skipn start offsets) start_offset min_size 0 in
  let* e := match found with
            | Some e => Ret e
            | None => let* o := idx offsets (length offsets - 1) in Ret (length offsets - 1, o)
            end in
  let '(end_pos, end_offset) := e in
  let* size := sub32 p end_offset start_offset in
  let* len := sub64 p (N.of_nat end_pos) (N.of_nat start) in
  Ret (mk_bchunk start end_pos start_offset end_offset size len).

(** binary_enc.rs:196-199: the lengths of [count] items from [i] on. *)
Fixpoint item_lens (p : profile) (buf : bin_buf) (i count : nat) : outcome (list N) :=
  match count with
  | O => Ret []
  | S count' =>
      let* l := bb_item_len p buf i in
      let* rest := item_lens p buf (S i) count' in
      Ret (l :: rest)
  end.

(** binary_enc.rs:179-220 [encode_binary_buffer]; results as for
    [encode_primitive_buffer].  The range of line 196 is empty if its end is
    before its start.  [offset_deltas] is always cleared first and not kept
    here. *)
Definition encode_binary_buffer (p : profile) (buf : bin_buf) (c : bin_chunk) (bit_pos : nat) (rle : rle_enc)
  : outcome (list N * rle_enc * (nat * nat)) :=
  let* encoded := put_varint [] (bc_size c) in
  let* data := slice (bb_data buf) (N.to_nat (bc_start_off c)) (N.to_nat (bc_end_off c)) in
  let* deltas := item_lens p buf (bc_start c) (bc_end c - bc_start c) in
  let* r := off_encode p deltas (encoded ++ data) in
  let encoded := snd r in
  let len := N.to_nat (bc_len c) in
  match bb_validity buf with
  | Some validity =>
      let* r := rle_put_from (rle_clear rle) validity bit_pos len in
      let* rle := rle_flush (fst r) in
      Ret (encoded ++ re_out rle, rle, (snd r, snd r))
  | None => Ret (encoded, rle, (len, 0))
  end.

(** binary_enc.rs:38-46 (without [offset_deltas], see above, and
    [offset_encoder], which has no state) *)
Record bin_enc := mk_benc {
  be_remaining : bin_buf;
  be_encoded : list N;         (* encoded_data *)
  be_bitmap : rle_enc;         (* bitmap_encoder *)
  be_min : N;                  (* min_block_size *)
  be_rows : N }.               (* num_rows *)

(** binary_enc.rs:49-59 *)
Definition be_new (block_size : N) (nullable : bool) : bin_enc :=
  mk_benc (bb_new nullable) [] rle_new block_size 0.

(** binary_enc.rs:114-119 [add_rows] on the counter *)
Definition be_add_rows (rows : N) (n : nat) : outcome N :=
  if (N.of_nat n <=? u32_max)%N then
    if (rows + N.of_nat n <=? u32_max)%N then Ret (rows + N.of_nat n)%N else Panic PExpect
  else Panic PExpect.

Section Encoder.
Context {S : Type} (wr : sink_fn S) (p : profile).

(** binary_enc.rs:61-84 [write_block], and the part 95-111 of
    [write_remaining], which is the same. *)
Definition be_write (e : bin_enc) (buf : bin_buf) (c : bin_chunk) (bit_pos : nat) (s : S)
  : outcome (bin_enc * S * result nat) :=
  let* r := encode_binary_buffer p buf c bit_pos (be_bitmap e) in
  let '(encoded, rle, (num_rows, last_validity_pos)) := r in
  let* rows := be_add_rows (be_rows e) num_rows in
  let e := mk_benc (be_remaining e) encoded rle (be_min e) rows in
  let* row_id := sub32 p rows 1 in
  let w := wr s row_id encoded in
  Ret (e, fst w, match snd w with Ok _ => Ok last_validity_pos | Err => Err end).

(** binary_enc.rs:86-112 [write_remaining] *)
Definition be_write_remaining (e : bin_enc) (s : S) : outcome (bin_enc * S * result nat) :=
  let offsets := bb_offsets (be_remaining e) in
  let* end_offset := idx offsets (length offsets - 1) in
  let c := mk_bchunk 0 (length offsets - 1) 0 end_offset end_offset (N.of_nat (bb_len (be_remaining e))) in
  be_write e (be_remaining e) c 0 s.

(** Mutation of [self.remaining], src/store/encoding/raw/binary_enc.rs:133-135, 144, 150-151. *)
Definition be_set_remaining (e : bin_enc) (b : bin_buf) : bin_enc :=
  mk_benc b (be_encoded e) (be_bitmap e) (be_min e) (be_rows e).

(** binary_enc.rs:147-159, the [while] loop.  Every iteration that neither
    returns nor panics advances [buf_pos]. *)
Fixpoint be_loop (fuel : nat) (e : bin_enc) (buffer : bin_buf) (buf_pos validity_pos : nat) (s : S)
  : outcome (bin_enc * S * result unit) :=
  match fuel with
  | O => NoFuel
  | Datatypes.S fuel' =>
      if buf_pos <? length (bb_offsets buffer) then
        let* c := be_chunk p buffer buf_pos (be_min e) in
        if (bc_size c <? be_min e)%N then
          let* r := bb_append_from p (be_remaining e) buffer (bc_start c) (bc_end c) validity_pos in
          Ret (be_set_remaining e (fst r), s, Ok tt)
        else
          let* w := be_write e buffer c validity_pos s in
          let '(e, s, res) := w in
          match res with
          | Ok last_validity_pos => be_loop fuel' e buffer (bc_end c) last_validity_pos s
          | Err => Ret (e, s, Err)
          end
      else Ret (e, s, Ok tt)
  end.

(** binary_enc.rs:124-162 [encode] *)
Definition be_encode (fuel : nat) (e : bin_enc) (buffer : bin_buf) (s : S)
  : outcome (bin_enc * S * result unit) :=
  if 0 <? bb_len (be_remaining e) then
    let remaining_size := N.of_nat (length (bb_data (be_remaining e))) in
    let* want := sub64 p (be_min e) remaining_size in
    let* c := be_chunk p buffer 0 want in
    let* r := bb_append_from p (be_remaining e) buffer (bc_start c) (bc_end c) 0 in
    let validity_pos := snd r in
    let e := be_set_remaining e (fst r) in
    if (N.of_nat (length (bb_data (be_remaining e))) <? be_min e)%N then Ret (e, s, Ok tt)
    else
      let* w := be_write_remaining e s in
      let '(e, s, res) := w in
      match res with
      | Ok _ => be_loop fuel (be_set_remaining e (bb_clear (be_remaining e))) buffer (bc_end c) validity_pos s
      | Err => Ret (e, s, Err)
      end
  else be_loop fuel e buffer 0 0 s.

(** binary_enc.rs:164-170 [flush].  The layout returned is the constant
    [Plain]. *)
Definition be_flush (e : bin_enc) (s : S) : outcome (bin_enc * S * result unit) :=
  if 0 <? bb_len (be_remaining e) then
    let* w := be_write_remaining e s in
    let '(e, s, res) := w in
    Ret (e, s, match res with Ok _ => Ok tt | Err => Err end)
  else Ret (e, s, Ok tt).
End Encoder.
