(** Reference readers for encoded blocks.  /repo has no reader for blocks; these
    are specifications of what a reader has to do, following the block formats
    documented at primitive_enc.rs:14-21 and binary_enc.rs:14-22 and using only
    the repository's own varint and run-length decoders. *)
From Verif Require Import Base Spec Varint Rle.
Open Scope nat_scope.

(** The number with the given little endian bytes. *)
Fixpoint le_value (bytes : list N) : N :=
  match bytes with
  | [] => 0
  | b :: rest => b + 256 * le_value rest
  end%N.

(** Cut a list into [n] pieces of length [sz]. *)
Fixpoint pieces (n sz : nat) (l : list N) : list (list N) :=
  match n with
  | O => []
  | S n' => firstn sz l :: pieces n' sz (skipn sz l)
  end.

(** Rows from the increasing positions of the non-null rows and their values. *)
Fixpoint place_rows {T} (next : N) (positions : list N) (values : list T) : list (option T) :=
  match positions, values with
  | q :: qs, v :: vs => repeat None (N.to_nat (q - next)) ++ Some v :: place_rows (q + 1) qs vs
  | _, _ => []
  end.

(** The rows of a block given its values and the bytes of its validity: the
    validity must account for every value, and must be absent if the column is
    not nullable. *)
Definition read_rows {T} (p : profile) (nullable : bool) (values : list T) (validity : list N)
  : outcome (result (list (option T))) :=
  if nullable then
    let* r := rle_decode p validity (repeat 0%N (length values)) in
    if snd r =? length values then Ret (Ok (place_rows 0 (fst r) values)) else Ret Err
  else match validity with [] => Ret (Ok (map Some values)) | _ => Ret Err end.

(** A block of fixed-width values of [sz] bytes: data length, data, validity. *)
Definition read_primitive_block (p : profile) (sz : nat) (nullable : bool) (block : list N)
  : outcome (result (list (option N))) :=
  let* r := decode_varint p block in
  match r with
  | Err => Ret Err
  | Ok (size, n) =>
      let size := N.to_nat size in
      let* data := slice block n (n + size) in
      if size mod sz =? 0 then
        read_rows p nullable (map le_value (pieces (size / sz) sz data)) (skipn (n + size) block)
      else Ret Err
  end.
