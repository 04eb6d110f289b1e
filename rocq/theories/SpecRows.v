(** Specification vocabulary for columns that are cut into blocks. *)
From Verif Require Import Base Spec.
Open Scope nat_scope.

(** The shortest prefix of [rows] with [k] non-null rows (all of [rows] if there
    are fewer), and the rest. *)
Fixpoint take_vals {T} (k : nat) (rows : list (option T)) : list (option T) :=
  match k, rows with
  | O, _ | _, [] => []
  | S k', Some v :: rest => Some v :: take_vals k' rest
  | S _, None :: rest => None :: take_vals k rest
  end.
Fixpoint drop_vals {T} (k : nat) (rows : list (option T)) : list (option T) :=
  match k, rows with
  | O, _ => rows
  | _, [] => []
  | S k', Some v :: rest => drop_vals k' rest
  | S _, None :: rest => drop_vals k rest
  end.

(** Number of non-null rows. *)
Definition num_vals {T} (rows : list (option T)) : nat := length (somes rows).

(** Without the nulls after the last non-null row. *)
Definition trim {T} (rows : list (option T)) : list (option T) := take_vals (num_vals rows) rows.

(** Cutting [rows] into pieces of exactly [cap] non-null rows as long as there
    are that many; [windows] are the pieces, [leftover] what follows the last of
    them, up to the last non-null row. *)
Fixpoint windows {T} (fuel cap : nat) (rows : list (option T)) : list (list (option T)) :=
  match fuel with
  | O => []
  | S fuel' =>
      if cap <=? num_vals rows then take_vals cap rows :: windows fuel' cap (drop_vals cap rows) else []
  end.
Fixpoint leftover {T} (fuel cap : nat) (rows : list (option T)) : list (option T) :=
  match fuel with
  | O => trim rows
  | S fuel' => if cap <=? num_vals rows then leftover fuel' cap (drop_vals cap rows) else trim rows
  end.

(** Empty, or the last row is not null. *)
Definition ends_some {T} (rows : list (option T)) : Prop := rows = [] \/ exists r v, rows = r ++ [Some v].

(** All of [rows] cut this way. *)
Definition cut {T} (cap : nat) (rows : list (option T)) : list (list (option T)) :=
  windows (S (num_vals rows)) cap rows.
Definition rest_of {T} (cap : nat) (rows : list (option T)) : list (option T) :=
  leftover (S (num_vals rows)) cap rows.

(** The rows each block of one buffer is counted for, where the blocks hold the
    windows [ws] and the first starts at row [pos] of the buffer: the block's own
    rows if the column is not nullable; otherwise the position of the block's end
    in the buffer. *)
Fixpoint counted {T} (nl : bool) (pos : nat) (ws : list (list (option T))) : list (nat * list (option T)) :=
  match ws with
  | [] => []
  | w :: rest => (if nl then pos + length w else length w, w) :: counted nl (pos + length w) rest
  end.


(** The blocks that a sequence of buffers produces, with the rows each is counted
    for, and the rows held back at the end.  [pending] are the rows held back so
    far.  While rows are held back a buffer only contributes what is missing for
    one block.  If [exact] does not hold, a buffer that arrives when the held back
    rows make up a block cannot be handled ([None]). *)
Fixpoint col_run {T} (nl exact : bool) (cap : nat) (pending : list (option T)) (bufs : list (list (option T)))
  : list (nat * list (option T)) * option (list (option T)) :=
  match bufs with
  | [] => ([], Some pending)
  | b :: rest =>
      match pending with
      | [] => let r := col_run nl exact cap (rest_of cap b) rest in (counted nl 0 (cut cap b) ++ fst r, snd r)
      | _ =>
          if (num_vals pending <? cap) || exact then
            col_run nl exact cap (pending ++ take_vals (min (cap - num_vals pending) (num_vals b)) b) rest
          else ([], None)
      end
  end.

(** The block a flush writes. *)
Definition flush_block {T} (pending : list (option T)) : list (nat * list (option T)) :=
  match pending with [] => [] | _ => [(length pending, pending)] end.

(** Row identifiers for blocks counted for [counts] rows: the last of the rows
    counted so far, from 0. *)
Fixpoint row_ids (from : N) (counts : list nat) : list N :=
  match counts with
  | [] => []
  | n :: rest => (from + N.of_nat n - 1)%N :: row_ids (from + N.of_nat n)%N rest
  end.

Definition total (counts : list nat) : N := fold_right (fun n t => N.of_nat n + t)%N 0%N counts.
