(** Model of /repo/src/store/encoding/varint.rs *)
From Verif Require Import Base.
Open Scope N_scope.

(** varint.rs:17 *)
Definition MAX_VARINT_LEN : nat := 10.

(** [u64::leading_zeros] (std).
    Called at src/store/encoding/varint.rs:23. *)
Definition leading_zeros64 (x : N) : N := if x =? 0 then 64 else 63 - N.log2 x.

(** varint.rs:20-24 [encoded_len_varint].  The u32 arithmetic is at most
    64*9+73, so no overflow is possible and the plain [N] operations are exact. *)
Definition encoded_len_varint (value : N) : nat :=
  N.to_nat ((N.lxor (leading_zeros64 (N.lor value 1)) 63 * 9 + 73) / 64).

(** varint.rs:27-37 [encode_varint]: the loop.  [fuel] bounds the number of
    tests of the loop condition; a u64 needs at most ten. *)
Fixpoint encode_varint_loop (fuel : nat) (value : N) (buf : list N) (i : nat)
  : outcome (list N * nat) :=
  match fuel with
  | O => NoFuel
  | S fuel' =>
      if 0x80 <=? value then
        let* buf := upd buf i (N.lor (N.land value 0x7F) 0x80 mod 256) in
        encode_varint_loop fuel' (N.shiftr value 7) buf (S i)
      else
        let* buf := upd buf i (value mod 256) in
        Ret (buf, S i)
  end.

(** varint.rs:27-37 [encode_varint]: returns the updated slice and the number
    of bytes written. *)
Definition encode_varint (value : N) (buf : list N) : outcome (list N * nat) :=
  encode_varint_loop MAX_VARINT_LEN value buf 0.

(** varint.rs:56-129 [decode_varint], statement by statement.  The u32/u64
    additions and subtractions are checked or wrapping according to [p]. *)
Definition decode_varint (p : profile) (buf : list N) : outcome (result (N * nat)) :=
  let* b := idx buf 0 in
  let part0 := b in
  if b <? 0x80 then Ret (Ok (part0, 1%nat)) else
  let* part0 := sub32 p part0 0x80 in
  let* b := idx buf 1 in
  let* part0 := add32 p part0 (shl32 b 7) in
  if b <? 0x80 then Ret (Ok (part0, 2%nat)) else
  let* part0 := sub32 p part0 (shl32 0x80 7) in
  let* b := idx buf 2 in
  let* part0 := add32 p part0 (shl32 b 14) in
  if b <? 0x80 then Ret (Ok (part0, 3%nat)) else
  let* part0 := sub32 p part0 (shl32 0x80 14) in
  let* b := idx buf 3 in
  let* part0 := add32 p part0 (shl32 b 21) in
  if b <? 0x80 then Ret (Ok (part0, 4%nat)) else
  let* part0 := sub32 p part0 (shl32 0x80 21) in
  let value := part0 in
  let* b := idx buf 4 in
  let part1 := b in
  if b <? 0x80 then (let* v := add64 p value (shl64 part1 28) in Ret (Ok (v, 5%nat))) else
  let* part1 := sub32 p part1 0x80 in
  let* b := idx buf 5 in
  let* part1 := add32 p part1 (shl32 b 7) in
  if b <? 0x80 then (let* v := add64 p value (shl64 part1 28) in Ret (Ok (v, 6%nat))) else
  let* part1 := sub32 p part1 (shl32 0x80 7) in
  let* b := idx buf 6 in
  let* part1 := add32 p part1 (shl32 b 14) in
  if b <? 0x80 then (let* v := add64 p value (shl64 part1 28) in Ret (Ok (v, 7%nat))) else
  let* part1 := sub32 p part1 (shl32 0x80 14) in
  let* b := idx buf 7 in
  let* part1 := add32 p part1 (shl32 b 21) in
  if b <? 0x80 then (let* v := add64 p value (shl64 part1 28) in Ret (Ok (v, 8%nat))) else
  let* part1 := sub32 p part1 (shl32 0x80 21) in
  let* value := add64 p value (shl64 part1 28) in
  let* b := idx buf 8 in
  let part2 := b in
  if b <? 0x80 then (let* v := add64 p value (shl64 part2 56) in Ret (Ok (v, 9%nat))) else
  let* part2 := sub32 p part2 0x80 in
  let* b := idx buf 9 in
  let* part2 := add32 p part2 (shl32 b 7) in
  if b <? 0x80 then (let* v := add64 p value (shl64 part2 56) in Ret (Ok (v, 10%nat))) else
  Ret Err.

(** varint.rs:135-141 [Vec<u8>::put_varint]. *)
Definition put_varint (vec : list N) (value : N) : outcome (list N) :=
  let* r := encode_varint value (repeat 0 MAX_VARINT_LEN) in
  let* s := slice (fst r) 0 (snd r) in
  Ret (vec ++ s).
