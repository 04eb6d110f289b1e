(** Specification vocabulary for columns whose blocks are not all accepted. *)
From Verif Require Import Base Spec SpecRows SpecBin.
Open Scope nat_scope.

(** Offering blocks in turn when [rows] rows were counted before: each is counted
    first, its identifier is the number of rows then counted less one, and the
    first that is not accepted ends it.  [fates] says which blocks will be
    accepted; all after its end are.  Result: the accepted blocks with their
    identifiers, the rows counted, the fates left and whether all were accepted;
    nothing if a block is not [fine] or the rows counted pass 2^32-1. *)
Fixpoint offer {T} (count : T -> nat) (fine : T -> bool) (rows : N) (fates : list bool) (blocks : list T)
  : option (list (N * T) * N * list bool * bool) :=
  match blocks with
  | [] => Some ([], rows, fates, true)
  | b :: rest =>
      let rows' := (rows + N.of_nat (count b))%N in
      if fine b && (rows' <? 2 ^ 32)%N then
        match fates with
        | false :: fates' => Some ([], rows', fates', false)
        | _ =>
            match offer count fine rows' (tl fates) rest with
            | Some (accepted, rows'', fates', all) => Some ((rows' - 1, b)%N :: accepted, rows'', fates', all)
            | None => None
            end
        end
      else None
  end.

(** A column between two calls: rows held back and written before, rows held
    back, rows counted, and the fates of the blocks to come. *)
Record col_state (V : Type) := mk_col { cl_past : list (list (option V)); cl_held : list (option V); cl_rows : N; cl_fates : list bool }.
Arguments mk_col {V}.
Arguments cl_past {V}.
Arguments cl_held {V}.
Arguments cl_rows {V}.
Arguments cl_fates {V}.

(** What a call does: nothing if it panics, else the accepted blocks, the new
    state and whether it succeeds. *)
Definition call_result (V T : Type) : Type := option (list (N * T) * col_state V * bool).

(** A history of calls; a failed call does not end it. *)
Fixpoint history {V T C} (step : col_state V -> C -> call_result V T) (st : col_state V) (calls : list C)
  : option (list (N * T) * col_state V * list bool) :=
  match calls with
  | [] => Some ([], st, [])
  | c :: rest =>
      match step st c with
      | None => None
      | Some (accepted, st', ok) =>
          match history step st' rest with
          | None => None
          | Some (accepted', st'', oks) => Some (accepted ++ accepted', st'', ok :: oks)
          end
      end
  end.

(** ** Binary columns *)

Definition bin_fine (it : bin_item) : bool := num_vals (it_rows it) <=? 128.

(** How many items of [b] complete the rows [R] held back: [None] if there are not
    enough.  If more than a block is held back, which only a failed call leaves,
    overflow checks make it panic and without them all items are taken. *)
Inductive room := Underflow | Takes (k : nat) | Short.

Definition bin_room (p : profile) (B : N) (R b : list (option (list N))) : room :=
  if (B <? N.of_nat (bytes_of R))%N then match p with Debug => Underflow | Release => Takes (num_vals b) end
  else match fill (B - N.of_nat (bytes_of R)) (somes b) with Some k => Takes k | None => Short end.

(** The blocks of the rest of a buffer (see [bin_cut]). *)
Definition bin_finish (p : profile) (nl : bool) (B : N) (past : list (list (option (list N)))) (rows : N) (fates : list bool)
  (fuel s pos : nat) (rest : list (option (list N))) : call_result (list N) bin_item :=
  let c := bin_cut p nl fuel B s pos rest in
  match offer it_count bin_fine rows fates (fst c) with
  | None => None
  | Some (accepted, rows', fates', false) => Some (accepted, mk_col past [] rows' fates', false)
  | Some (accepted, rows', fates', true) =>
      match snd c with
      | Held R' => Some (accepted, mk_col past R' rows' fates', true)
      | Stuck _ => None
      end
  end.

(** [Some b] is a call of [encode] with a buffer of the rows [b], [None] a flush.
    A flush does not change what is held back, nor does a call whose completed
    block is not accepted take anything back. *)
Definition bin_call (p : profile) (nl : bool) (B : N) (st : col_state (list N)) (call : option (list (option (list N))))
  : call_result (list N) bin_item :=
  let past := cl_past st in let R := cl_held st in
  let held_block R := let w := seen nl past R in offer it_count bin_fine (cl_rows st) (cl_fates st) [mk_item (length w) w []] in
  match call, R with
  | Some b, [] => bin_finish p nl B past (cl_rows st) (cl_fates st) (S (num_vals b)) 0 0 b
  | None, [] => Some ([], st, true)
  | None, _ =>
      match held_block R with
      | None => None
      | Some (accepted, rows', fates', ok) => Some (accepted, mk_col past R rows' fates', ok)
      end
  | Some b, _ =>
      match bin_room p B R b with
      | Underflow => None
      | Short => Some ([], mk_col past (R ++ trim b) (cl_rows st) (cl_fates st), true)
      | Takes k =>
          let full := R ++ take_vals k b in
          match held_block full with
          | None => None
          | Some (_, rows', fates', false) => Some ([], mk_col past full rows' fates', false)
          | Some (accepted, rows', fates', true) =>
              match bin_finish p nl B (full :: past) rows' fates' (S (num_vals b)) k (length (take_vals k b)) (drop_vals k b) with
              | None => None
              | Some (accepted', st', ok) => Some (accepted ++ accepted', st', ok)
              end
          end
      end
  end.

(** ** Fixed-width columns *)

(** The blocks of the rest of a buffer whose first row is row [pos] of it. *)
Definition prim_finish {V} (nl : bool) (cap : nat) (past : list (list (option V))) (rows : N) (fates : list bool)
  (pos : nat) (rest : list (option V)) : call_result V (nat * list (option V)) :=
  match offer fst (fun _ => true) rows fates (counted nl pos (cut cap rest)) with
  | None => None
  | Some (accepted, rows', fates', ok) => Some (accepted, mk_col past (if ok then rest_of cap rest else []) rows' fates', ok)
  end.

(** The same for values of [sz] bytes, of which [cap] make up a block of [B]
    bytes.  [checked]: overflows are detected.  The number of VALUES held back is
    compared with the block size in BYTES. *)
Definition prim_call {V} (nl checked : bool) (sz : nat) (B : N) (cap : nat) (st : col_state V) (call : option (list (option V)))
  : call_result V (nat * list (option V)) :=
  let past := cl_past st in let R := cl_held st in
  let held_block R := let w := seen nl past R in offer fst (fun _ => true) (cl_rows st) (cl_fates st) [(length w, w)] in
  match call, R with
  | Some b, [] => prim_finish nl cap past (cl_rows st) (cl_fates st) 0 b
  | None, [] => Some ([], st, true)
  | None, _ =>
      match held_block R with
      | None => None
      | Some (accepted, rows', fates', ok) => Some (accepted, mk_col past R rows' fates', ok)
      end
  | Some b, _ =>
      let larger := (B <? N.of_nat (num_vals R * sz))%N in
      if larger && checked then None
      else
        let k := if larger then num_vals b else min (cap - num_vals R) (num_vals b) in
        let full := R ++ take_vals k b in
        if (N.of_nat (num_vals full) <? B)%N then Some ([], mk_col past full (cl_rows st) (cl_fates st), true)
        else
          match held_block full with
          | None => None
          | Some (_, rows', fates', false) => Some ([], mk_col past full rows' fates', false)
          | Some (accepted, rows', fates', true) =>
              match prim_finish nl cap (full :: past) rows' fates' (length (take_vals k b)) (drop_vals k b) with
              | None => None
              | Some (accepted', st', ok) => Some (accepted ++ accepted', st', ok)
              end
          end
  end.
