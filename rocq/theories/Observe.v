(** Driving the modelled buffers through their public methods and observing the
    result.  Used to state properties; nothing here models code of /repo. *)
From Verif Require Import Base Spec Buffers Rle.
Open Scope nat_scope.

(** A bitmap shows exactly the bits [bits]: its length, every readable position,
    and the refusal to read past the end. *)
Definition reads_as (b : bitmap) (bits : list bool) : Prop :=
  bm_len b = length bits
  /\ forall i, bm_is_set b i = if i <? length bits then Ret (nth i bits false) else Panic PAssert.

(** Appending a list of bits one by one. *)
Fixpoint bm_appends (b : bitmap) (xs : list bool) : outcome bitmap :=
  match xs with
  | [] => Ret b
  | x :: r => let* b := bm_append b x in bm_appends b r
  end.

(** Using a bitmap several times: append a round of bits, clear, and so on. *)
Fixpoint bm_rounds (b : bitmap) (rounds : list (list bool)) : outcome bitmap :=
  match rounds with
  | [] => Ret b
  | xs :: rest => let* b := bm_appends b xs in bm_rounds (bm_clear b) rest
  end.

(** Appending rows (values and nulls) to a fixed-width buffer. *)
Fixpoint pb_append_rows {T} (b : prim_buf T) (rows : list (option T)) : outcome (prim_buf T) :=
  match rows with
  | [] => Ret b
  | Some v :: rest => let* b := pb_append b v in pb_append_rows b rest
  | None :: rest => let* b := pb_append_null b in pb_append_rows b rest
  end.

Fixpoint pb_rounds {T} (b : prim_buf T) (rounds : list (list (option T))) : outcome (prim_buf T) :=
  match rounds with
  | [] => Ret b
  | xs :: rest => let* b := pb_append_rows b xs in pb_rounds (pb_clear b) rest
  end.

(** Appending rows to a binary buffer. *)
Fixpoint bb_append_rows (b : bin_buf) (rows : list (option (list N))) : outcome bin_buf :=
  match rows with
  | [] => Ret b
  | Some v :: rest => let* b := bb_append b v in bb_append_rows b rest
  | None :: rest => let* b := bb_append_null b in bb_append_rows b rest
  end.

Fixpoint bb_rounds (b : bin_buf) (rounds : list (list (option (list N)))) : outcome bin_buf :=
  match rounds with
  | [] => Ret b
  | xs :: rest => let* b := bb_append_rows b xs in bb_rounds (bb_clear b) rest
  end.

(** Appending rows to a boolean buffer. *)
Fixpoint ob_append_rows (b : bool_buf) (rows : list (option bool)) : outcome bool_buf :=
  match rows with
  | [] => Ret b
  | Some v :: rest => let* b := ob_append b v in ob_append_rows b rest
  | None :: rest => let* b := ob_append_null b in ob_append_rows b rest
  end.

Fixpoint ob_rounds (b : bool_buf) (rounds : list (list (option bool))) : outcome bool_buf :=
  match rounds with
  | [] => Ret b
  | xs :: rest => let* b := ob_append_rows b xs in ob_rounds (ob_clear b) rest
  end.

(** The validity bitmap of a buffer shows which of [rows] are non-null; a buffer
    that is not nullable has none and only non-null rows. *)
Definition validity_shows {T} (v : option bitmap) (nullable : bool) (rows : list (option T)) : Prop :=
  match v with
  | Some bm => nullable = true /\ reads_as bm (validity_of rows)
  | None => nullable = false /\ Forall (fun r => is_some r = true) rows
  end.

(** A fixed-width buffer shows exactly [rows]. *)
Definition pb_holds {T} (b : prim_buf T) (nullable : bool) (rows : list (option T)) : Prop :=
  pb_values b = somes rows /\ validity_shows (pb_validity b) nullable rows.

(** The offsets of consecutive items: 0, then the running total of lengths. *)
Fixpoint running_offsets (from : N) (items : list (list N)) : list N :=
  match items with
  | [] => [from]
  | v :: rest => from :: running_offsets (from + N.of_nat (length v)) rest
  end.

(** A binary buffer shows exactly [rows]. *)
Definition bb_holds (b : bin_buf) (nullable : bool) (rows : list (option (list N))) : Prop :=
  bb_data b = concat (somes rows) /\ bb_offsets b = running_offsets 0 (somes rows)
  /\ validity_shows (bb_validity b) nullable rows.

(** Rows a buffer of the given nullability accepts. *)
Definition rows_allowed {T} (nullable : bool) (rows : list (option T)) : Prop :=
  nullable = true \/ Forall (fun r => is_some r = true) rows.

(** Putting a list of bits into the run-length encoder one by one. *)
Fixpoint rle_puts (e : rle_enc) (bits : list bool) : outcome rle_enc :=
  match bits with
  | [] => Ret e
  | b :: rest => let* e := rle_put e b in rle_puts e rest
  end.

(** Putting bits into an encoder and flushing: the bytes it holds then. *)
Definition rle_encode (e : rle_enc) (bits : list bool) : outcome (list N) :=
  let* e := rle_puts e bits in let* e := rle_flush e in Ret (re_out e).
