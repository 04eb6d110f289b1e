(** Model of /repo/src/store/indexing_buffer.rs

    Positions and lengths ([usize]) are [nat]; bytes and offsets are [N].
    [x >> 3] and [x & 7] on a usize are written [x / 8] and [x mod 8]. *)
From Verif Require Import Base.
Open Scope nat_scope.

(** indexing_buffer.rs:23 (and bitmap_rle.rs:21) *)
Definition BIT_MASK : list N := [1; 2; 4; 8; 16; 32; 64; 128]%N.
(** indexing_buffer.rs:24 *)
Definition INITIAL_BITMAP_CAP : nat := 1024.

(** ** Bitmap *)

(** indexing_buffer.rs:32-35 *)
Record bitmap := mk_bitmap { bm_values : list N; bm_len : nat }.

(** indexing_buffer.rs:38-43 *)
Definition bm_new : bitmap := mk_bitmap (repeat 0%N INITIAL_BITMAP_CAP) 0.

(** indexing_buffer.rs:45-50 *)
Definition bm_with_capacity (cap : nat) : bitmap := mk_bitmap (repeat 0%N (cap / 8)) 0.

(** indexing_buffer.rs:52-64 *)
Definition bm_append (b : bitmap) (set : bool) : outcome bitmap :=
  let i := bm_len b / 8 in
  let values := if i =? length (bm_values b)
                then resize (bm_values b) (length (bm_values b) * 2) 0%N
                else bm_values b in
  let* values := (if set then
                    let* mask := idx BIT_MASK (bm_len b mod 8) in
                    let* old := idx values i in
                    upd values i (N.lor old mask)
                  else Ret values) in
  Ret (mk_bitmap values (bm_len b + 1)).

(** indexing_buffer.rs:78-81 *)
Definition bm_is_set (b : bitmap) (i : nat) : outcome bool :=
  if i <? bm_len b then
    let* byte := idx (bm_values b) (i / 8) in
    let* mask := idx BIT_MASK (i mod 8) in
    Ret (negb (N.land byte mask =? 0)%N)
  else Panic PAssert.

(** indexing_buffer.rs:66-76, the loop.  Every iteration reads one more source
    bit and a read past the source's length panics, so [S (len src)] steps of
    fuel always suffice. *)
Fixpoint bm_append_from_loop (fuel : nat) (dst src : bitmap) (items bit_pos n : nat)
  : outcome (bitmap * nat) :=
  match fuel with
  | O => NoFuel
  | S fuel' =>
      if items <? n then
        let* bit := bm_is_set src bit_pos in
        let* dst := bm_append dst bit in
        bm_append_from_loop fuel' dst src (items + b2n bit) (bit_pos + 1) n
      else Ret (dst, bit_pos)
  end.

(** indexing_buffer.rs:66-76 *)
Definition bm_append_from (dst src : bitmap) (start_pos num_of_items : nat) : outcome (bitmap * nat) :=
  bm_append_from_loop (S (bm_len src)) dst src 0 start_pos num_of_items.

(** indexing_buffer.rs:87-90: the bytes are truncated or extended to the initial
    capacity, but not zeroed. *)
Definition bm_clear (b : bitmap) : bitmap :=
  mk_bitmap (resize (bm_values b) INITIAL_BITMAP_CAP 0%N) 0.

(** ** PrimitiveBuffer *)

(** indexing_buffer.rs:95-98 *)
Record prim_buf (T : Type) := mk_prim { pb_values : list T; pb_validity : option bitmap }.
Arguments mk_prim {T}.
Arguments pb_values {T}.
Arguments pb_validity {T}.

(** indexing_buffer.rs:101-111, 213-224, 343-354: the [validity] field of a new
    buffer. *)
Definition new_validity (nullable : bool) : option bitmap :=
  if nullable then Some bm_new else None.

(** src/store/indexing_buffer.rs:101-111. *)
Definition pb_new {T} (nullable : bool) : prim_buf T := mk_prim [] (new_validity nullable).

(** The [if let Some(ref mut validity)] of the append methods.
    src/store/indexing_buffer.rs:116-118, 231-233, 359-361. *)
Definition validity_append (v : option bitmap) (set : bool) : outcome (option bitmap) :=
  match v with
  | Some bm => let* bm := bm_append bm set in Ret (Some bm)
  | None => Ret None
  end.

(** indexing_buffer.rs:114-119 *)
Definition pb_append {T} (b : prim_buf T) (value : T) : outcome (prim_buf T) :=
  let* v := validity_append (pb_validity b) true in
  Ret (mk_prim (pb_values b ++ [value]) v).

(** The body of the three [append_null]: indexing_buffer.rs:124-127, 238-241,
    367-370. *)
Definition validity_append_null (v : option bitmap) : outcome (option bitmap) :=
  match v with
  | Some bm => let* bm := bm_append bm false in Ret (Some bm)
  | None => Panic PExplicit
  end.

(** indexing_buffer.rs:123-128 *)
Definition pb_append_null {T} (b : prim_buf T) : outcome (prim_buf T) :=
  let* v := validity_append_null (pb_validity b) in
  Ret (mk_prim (pb_values b) v).

(** The tail shared by the two [append_from]: indexing_buffer.rs:143-153 and
    271-280. *)
Definition validity_append_from (dst src : option bitmap) (validity_pos num_values : nat)
  : outcome (option bitmap * nat) :=
  match src with
  | Some validity_src =>
      match dst with
      | Some validity_dst =>
          let* r := bm_append_from validity_dst validity_src validity_pos num_values in
          Ret (Some (fst r), snd r)
      | None => Panic PExpect
      end
  | None =>
      match dst with
      | None => Ret (None, num_values)
      | Some _ => Panic PAssert
      end
  end.

(** indexing_buffer.rs:130-154 *)
Definition pb_append_from {T} (b buf : prim_buf T) (start end_ validity_pos : nat)
  : outcome (prim_buf T * nat) :=
  let* chunk := slice (pb_values buf) start end_ in
  let values := pb_values b ++ chunk in
  if (N.of_nat (length values) <? u32_max)%N then
    let* r := validity_append_from (pb_validity b) (pb_validity buf) validity_pos (end_ - start) in
    Ret (mk_prim values (fst r), snd r)
  else Panic PAssert.

(** indexing_buffer.rs:169-171 *)
Definition pb_len {T} (b : prim_buf T) : nat := length (pb_values b).

(** indexing_buffer.rs:174-179 *)
Definition pb_num_values {T} (b : prim_buf T) : nat :=
  match pb_validity b with Some v => bm_len v | None => length (pb_values b) end.

(** indexing_buffer.rs:182-184 *)
Definition pb_is_nullable {T} (b : prim_buf T) : bool :=
  match pb_validity b with Some _ => true | None => false end.

(** [validity.len() - n != 0] of indexing_buffer.rs:189 and 320, on usize. *)
Definition validity_has_nulls (p : profile) (v : option bitmap) (n : nat) : outcome bool :=
  match v with
  | Some bm => let* d := sub64 p (N.of_nat (bm_len bm)) (N.of_nat n) in Ret (negb (d =? 0)%N)
  | None => Ret false
  end.

(** indexing_buffer.rs:187-192 *)
Definition pb_has_nulls {T} (p : profile) (b : prim_buf T) : outcome bool :=
  validity_has_nulls p (pb_validity b) (length (pb_values b)).

(** indexing_buffer.rs:195-200 *)
Definition pb_clear {T} (b : prim_buf T) : prim_buf T :=
  mk_prim [] (option_map bm_clear (pb_validity b)).

(** ** BinaryBuffer *)

(** indexing_buffer.rs:206-210 *)
Record bin_buf := mk_bin { bb_data : list N; bb_offsets : list N; bb_validity : option bitmap }.

(** indexing_buffer.rs:213-224 *)
Definition bb_new (nullable : bool) : bin_buf := mk_bin [] [0%N] (new_validity nullable).

(** indexing_buffer.rs:227-234 *)
Definition bb_append (b : bin_buf) (value : list N) : outcome bin_buf :=
  let data := bb_data b ++ value in
  if (N.of_nat (length data) <=? u32_max)%N then
    let offsets := bb_offsets b ++ [N.of_nat (length data)] in
    let* v := validity_append (bb_validity b) true in
    Ret (mk_bin data offsets v)
  else Panic PExpect.

(** indexing_buffer.rs:237-242 *)
Definition bb_append_null (b : bin_buf) : outcome bin_buf :=
  let* v := validity_append_null (bb_validity b) in
  Ret (mk_bin (bb_data b) (bb_offsets b) v).

(** indexing_buffer.rs:244-246 *)
Definition bb_item_len (p : profile) (b : bin_buf) (i : nat) : outcome N :=
  let* hi := idx (bb_offsets b) (i + 1) in
  let* lo := idx (bb_offsets b) i in
  sub32 p hi lo.

(** indexing_buffer.rs:261-264: push the running offsets of items [i ..
    i + count). *)
Fixpoint bb_push_offsets (p : profile) (buf : bin_buf) (i count : nat) (last : N) (offsets : list N)
  : outcome (list N) :=
  match count with
  | O => Ret offsets
  | S count' =>
      let* len := bb_item_len p buf i in
      let* last := add32 p last len in
      bb_push_offsets p buf (S i) count' last (offsets ++ [last])
  end.

(** indexing_buffer.rs:248-281.  [*self.offsets.last().unwrap_or(&0u32)] is
    [List.last _ 0].  [end - start] is evaluated at line 257, before any
    slicing. *)
Definition bb_append_from (p : profile) (b buf : bin_buf) (start end_ validity_pos : nat)
  : outcome (bin_buf * nat) :=
  let* start_offset := idx (bb_offsets buf) start in
  let* end_offset := idx (bb_offsets buf) end_ in
  let* chunk_len := sub64 p (N.of_nat end_) (N.of_nat start) in
  let* offsets := bb_push_offsets p buf start (end_ - start) (last (bb_offsets b) 0%N) (bb_offsets b) in
  let* chunk := slice (bb_data buf) (N.to_nat start_offset) (N.to_nat end_offset) in
  let data := bb_data b ++ chunk in
  if (N.of_nat (length data) <? u32_max)%N then
    let* r := validity_append_from (bb_validity b) (bb_validity buf) validity_pos (N.to_nat chunk_len) in
    Ret (mk_bin data offsets (fst r), snd r)
  else Panic PAssert.

(** indexing_buffer.rs:300-302 (the offsets vector is never empty) *)
Definition bb_len (b : bin_buf) : nat := length (bb_offsets b) - 1.

(** indexing_buffer.rs:305-310 *)
Definition bb_num_values (b : bin_buf) : nat :=
  match bb_validity b with Some v => bm_len v | None => bb_len b end.

(** indexing_buffer.rs:313-315 *)
Definition bb_is_nullable (b : bin_buf) : bool :=
  match bb_validity b with Some _ => true | None => false end.

(** indexing_buffer.rs:318-323 *)
Definition bb_has_nulls (p : profile) (b : bin_buf) : outcome bool :=
  validity_has_nulls p (bb_validity b) (bb_len b).

(** indexing_buffer.rs:326-332 *)
Definition bb_clear (b : bin_buf) : bin_buf :=
  mk_bin [] (firstn 1 (bb_offsets b)) (option_map bm_clear (bb_validity b)).

(** ** BoolBuffer *)

(** indexing_buffer.rs:336-340 *)
Record bool_buf := mk_boolb { ob_values : bitmap; ob_validity : option bitmap; ob_len : nat }.

(** indexing_buffer.rs:343-354 *)
Definition ob_new (nullable : bool) : bool_buf := mk_boolb bm_new (new_validity nullable) 0.

(** indexing_buffer.rs:357-363 *)
Definition ob_append (b : bool_buf) (value : bool) : outcome bool_buf :=
  let* values := bm_append (ob_values b) value in
  let* v := validity_append (ob_validity b) true in
  Ret (mk_boolb values v (ob_len b + 1)).

(** indexing_buffer.rs:366-372 *)
Definition ob_append_null (b : bool_buf) : outcome bool_buf :=
  let* v := validity_append_null (ob_validity b) in
  Ret (mk_boolb (ob_values b) v (ob_len b + 1)).

(** indexing_buffer.rs:381-383 *)
Definition ob_get_validity (b : bool_buf) : outcome bitmap :=
  match ob_validity b with Some v => Ret v | None => Panic PExpect end.

(** indexing_buffer.rs:391-393 *)
Definition ob_is_nullable (b : bool_buf) : bool :=
  match ob_validity b with Some _ => true | None => false end.

(** indexing_buffer.rs:396-398 *)
Definition ob_has_nulls (b : bool_buf) : bool := negb (bm_len (ob_values b) =? ob_len b).

(** indexing_buffer.rs:401-407 *)
Definition ob_clear (b : bool_buf) : bool_buf :=
  mk_boolb (bm_clear (ob_values b)) (option_map bm_clear (ob_validity b)) 0.
