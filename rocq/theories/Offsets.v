(** Model of /repo/src/store/encoding/offsets.rs and of the parts of the
    [bitpacking] 0.5.1 crate it uses (an external crate: its observable
    behaviour is described, not its vector instructions). *)
From Verif Require Import Base Spec Util.
Open Scope nat_scope.

(** [BitPacker4x::BLOCK_LEN]
    Used at src/store/encoding/offsets.rs:39, 52. *)
Definition BLOCK_LEN : nat := 4 * 32.

(** [BitPacker4x::num_bits]: asserts that exactly a block is given; the number
    of bits of the bitwise or of the values.
    Called at src/store/encoding/offsets.rs:42. *)
Definition bp_num_bits (values : list N) : outcome nat :=
  if length values =? BLOCK_LEN then Ret (N.to_nat (N.size (fold_right N.lor 0%N values))) else Panic PAssert.

(** Layout: value [i] is in lane [i mod 4]; within a lane the values are packed
    one after the other, least significant bit first, into 32-bit little endian
    words, and the words of the four lanes alternate.  [bp_byte values b k] is
    byte [k] of the packed form with width [b]: it belongs to word [k / 16] of
    lane [k mod 16 / 4] and is byte [k mod 4] of that word.
    Part of [compress], src/store/encoding/offsets.rs:53-55. *)
Definition bp_byte (values : list N) (b k : nat) : N :=
  bits_value (map (fun j =>
    let t := 32 * (k / 16) + 8 * (k mod 4) + j in
    N.testbit (nth (4 * (t / b) + k mod 16 / 4) values 0%N) (N.of_nat (t mod b))) (seq 0 8)).

(** Part of [compress], src/store/encoding/offsets.rs:53-55. *)
Definition bp_pack (values : list N) (b : nat) : list N := map (bp_byte values b) (seq 0 (16 * b)).

(** [BitPacker4x::compress]: writes [16 * b] bytes at the start of [out] and
    returns how many.  Width 0 writes nothing and checks nothing; otherwise the
    input must be a block and the output long enough.
    Called at src/store/encoding/offsets.rs:53-55. *)
Definition bp_compress (values out : list N) (b : nat) : outcome (list N * nat) :=
  if b =? 0 then Ret (out, 0)
  else if length values =? BLOCK_LEN then
    if 16 * b <=? length out then Ret (bp_pack values b ++ skipn (16 * b) out, 16 * b) else Panic PAssert
  else Panic PAssert.

(** [BitPacker4x::decompress] of width [b]: value [i].  Only used to state
    properties; /repo has no decoder yet.
    Inverse of src/store/encoding/offsets.rs:53-55. *)
Definition bp_unpack_value (bytes : list N) (b i : nat) : N :=
  bits_value (map (fun j =>
    let t := i / 4 * b + j in
    N.testbit (nth (16 * (t / 32) + 4 * (i mod 4) + t mod 32 / 8) bytes 0%N) (N.of_nat (t mod 8))) (seq 0 b)).
(** Inverse of src/store/encoding/offsets.rs:53-55. *)
Definition bp_unpack (bytes : list N) (b : nat) : list N := map (bp_unpack_value bytes b) (seq 0 BLOCK_LEN).

(** [slice.chunks(n)]
    Called at src/store/encoding/offsets.rs:52. *)
Fixpoint chunks {A} (fuel n : nat) (l : list A) : list (list A) :=
  match fuel, l with
  | O, _ | _, [] => []
  | S fuel', _ => firstn n l :: chunks fuel' n (skipn n l)
  end.

(** offsets.rs:52-57, the loop over the chunks *)
Fixpoint off_chunks (cs : list (list N)) (dst : list N) (chunk_start b : nat) : outcome (list N) :=
  match cs with
  | [] => Ret dst
  | c :: rest =>
      let* out := slice_from dst chunk_start in
      let* r := bp_compress c out b in
      off_chunks rest (firstn chunk_start dst ++ fst r) (chunk_start + snd r) b
  end.

(** offsets.rs:36-63 [OffsetEncoder::encode]; returns the (padded) source and
    the destination.  The encoder itself has no state.  [num_bits] fits its
    u8. *)
Definition off_encode (p : profile) (src dst : list N) : outcome (list N * list N) :=
  let num_values := length src in
  let* lp := round_upto_power_of_2 p (N.of_nat num_values) (N.of_nat BLOCK_LEN) in
  let src := resize src (N.to_nat lp) 0%N in
  let* b := bp_num_bits src in
  let dst := dst ++ [N.of_nat b] in
  let start := length dst in
  let dst := resize dst (start + N.to_nat (ceil8 (N.of_nat (b * N.to_nat lp)))) 0%N in
  let* dst := off_chunks (chunks (length src) BLOCK_LEN src) dst start b in
  Ret (src, resize dst (start + N.to_nat (ceil8 (N.of_nat (b * num_values)))) 0%N).
