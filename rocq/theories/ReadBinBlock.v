(** Reference reader for blocks of a binary column, following the format at
    binary_enc.rs:14-22 (see ReadBlock.v).  A block does not say how many items it
    has, so the reader has to be told. *)
From Verif Require Import Base Spec Varint Rle Offsets ReadBlock.
Open Scope nat_scope.

(** Items with the given lengths. *)
Fixpoint split_items (lens : list N) (data : list N) : list (list N) :=
  match lens with
  | [] => []
  | l :: rest => firstn (N.to_nat l) data :: split_items rest (skipn (N.to_nat l) data)
  end.

(** Data length, data, width and packed lengths of [n] items, validity.  The
    lengths must add up to the data length. *)
Definition read_binary_block (p : profile) (nullable : bool) (n : nat) (block : list N)
  : outcome (result (list (option (list N)))) :=
  let* r := decode_varint p block in
  match r with
  | Err => Ret Err
  | Ok (size, k) =>
      let* data := slice block k (k + N.to_nat size) in
      match skipn (k + N.to_nat size) block with
      | [] => Ret Err
      | width :: rest =>
          let b := N.to_nat width in
          let packed := (b * n + 7) / 8 in
          let lens := firstn n (bp_unpack (firstn packed rest) b) in
          if (fold_right N.add 0 lens =? size)%N then read_rows p nullable (split_items lens data) (skipn packed rest)
          else Ret Err
      end
  end.
