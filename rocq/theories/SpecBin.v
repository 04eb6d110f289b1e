(** Specification vocabulary for binary columns that are cut into blocks. *)
From Verif Require Import Base Spec SpecRows.
Open Scope nat_scope.

(** Amount of data in the items of [rows]. *)
Definition bytes_of (rows : list (option (list N))) : nat := length (concat (somes rows)).

(** The least number of items that together have [m] bytes or more. *)
Fixpoint fill (m : N) (items : list (list N)) : option nat :=
  if (m =? 0)%N then Some 0
  else match items with
       | [] => None
       | v :: rest => option_map S (fill (m - N.of_nat (length v)) rest)
       end.

(** Rows with the given validity and values, up to the last value. *)
Fixpoint place {T} (bits : list bool) (values : list T) : list (option T) :=
  match values, bits with
  | [], _ | _, [] => []
  | v :: vs, true :: bs => Some v :: place bs vs
  | _, false :: bs => None :: place bs values
  end.

(** Clearing held back rows does not clear their validity bits: a position below
    8192 that was non-null in some [past] held back rows looks non-null again. *)
Definition dirty {T} (past : list (list (option T))) (i : nat) : bool :=
  (N.of_nat i <? 8192)%N && existsb (fun r => nth i (validity_of r) false) past.

(** How held back rows [R] look after the [past] ones were cleared. *)
Definition seen {T} (nl : bool) (past : list (list (option T))) (R : list (option T)) : list (option T) :=
  if nl then place (map (fun i => nth i (validity_of R) false || dirty past i) (seq 0 (length R))) (somes R) else R.

(** A block: the rows it is counted for, the rows it is written for, and the
    bytes of further items that its data contains by mistake. *)
Record bin_item := mk_item { it_count : nat; it_rows : list (option (list N)); it_extra : list N }.

(** How processing a buffer ends: the rows held back, or a panic. *)
Inductive ending := Held (R : list (option (list N))) | Stuck (k : panic_kind).

(** Cutting [rows], the rest of a buffer after [s] items in [pos] rows, into
    blocks of at least [B] bytes.  [q], the number of items that fill a block, is
    taken for the position in the buffer where the block ends, so it is the
    number of items in the block only at the start of the buffer: later the
    block is written for [q - s] items, has the data of [q] and, if there is no
    such number, there is a panic. *)
Fixpoint bin_cut (p : profile) (nl : bool) (fuel : nat) (B : N) (s pos : nat) (rows : list (option (list N)))
  : list bin_item * ending :=
  match fuel with
  | O => ([], Stuck PAssert)
  | S fuel' =>
      match fill B (somes rows) with
      | None => ([], Held (trim rows))
      | Some q =>
          if q <=? s then ([], Stuck (if q <? s then match p with Debug => POverflow | Release => PAssert end else PAssert))
          else
            let w := take_vals (q - s) rows in
            let r := bin_cut p nl fuel' B q (pos + length w) (drop_vals (q - s) rows) in
            (mk_item (if nl then pos + length w else length w) w (concat (firstn s (skipn (q - s) (somes rows)))) :: fst r,
             snd r)
      end
  end.

(** One buffer [b] when [R] is held back: if there is enough data for a block,
    the held back rows are completed and written first. *)
Definition bin_step (p : profile) (nl : bool) (B : N) (past : list (list (option (list N))))
  (R b : list (option (list N))) : list (list (option (list N))) * (list bin_item * ending) :=
  match R with
  | [] => (past, bin_cut p nl (S (num_vals b)) B 0 0 b)
  | _ =>
      match fill (B - N.of_nat (bytes_of R)) (somes b) with
      | None => (past, ([], Held (R ++ trim b)))
      | Some k =>
          let full := R ++ take_vals k b in
          let w := seen nl past full in
          let r := bin_cut p nl (S (num_vals b)) B k (length (take_vals k b)) (drop_vals k b) in
          (full :: past, (mk_item (length w) w [] :: fst r, snd r))
      end
  end.

(** A sequence of buffers. *)
Fixpoint bin_run (p : profile) (nl : bool) (B : N) (past : list (list (option (list N))))
  (R : list (option (list N))) (bufs : list (list (option (list N))))
  : list (list (option (list N))) * (list bin_item * ending) :=
  match bufs with
  | [] => (past, ([], Held R))
  | b :: rest =>
      let '(past', (items, e)) := bin_step p nl B past R b in
      match e with
      | Held R' => let r := bin_run p nl B past' R' rest in (fst r, (items ++ fst (snd r), snd (snd r)))
      | Stuck k => (past', (items, Stuck k))
      end
  end.
