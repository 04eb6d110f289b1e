(** Specification vocabulary.  These definitions describe what a user means,
    independently of how /repo implements it; the property theorems in the
    [Props*.v] files are stated with them and with the modelled API only. *)
From Verif Require Import Base.
Open Scope N_scope.

(** * Little-endian base-128 numbers (varints) *)

(** The number denoted by a sequence of 7-bit groups, least significant group
    first; only the low seven bits of each byte count. *)
Fixpoint groups_value (bs : list N) : N :=
  match bs with
  | [] => 0
  | b :: rest => b mod 128 + 128 * groups_value rest
  end.

(** Top bit set: another group follows. *)
Definition continues (b : N) : Prop := 128 <= b.

(** * Bits and rows *)

Close Scope N_scope.
Open Scope nat_scope.

(** How many booleans of a list are [true]. *)
Definition count_true (bits : list bool) : nat := length (filter (fun b => b) bits).

(** [w] is the shortest run of [bits] from position [start] that contains [n]
    set bits: it has [n] of them and, unless empty, ends with one. *)
Definition valid_window (bits : list bool) (start n : nat) (w : list bool) : Prop :=
  exists before after,
    bits = before ++ w ++ after /\ length before = start /\ count_true w = n
    /\ (w = [] \/ exists w', w = w' ++ [true]).

(** A column is a list of rows, each a value or null. *)
Definition is_some {T} (r : option T) : bool := match r with Some _ => true | None => false end.

(** The non-null values of a column, in order. *)
Fixpoint somes {T} (rows : list (option T)) : list T :=
  match rows with
  | [] => []
  | Some v :: rest => v :: somes rest
  | None :: rest => somes rest
  end.

(** Which rows are non-null. *)
Definition validity_of {T} (rows : list (option T)) : list bool := map is_some rows.

(** * Packed bits and positions *)

(** The number whose binary digits, least significant first, are [bits]. *)
Fixpoint bits_value (bits : list bool) : N :=
  match bits with
  | [] => 0
  | b :: rest => (if b then 1 else 0) + 2 * bits_value rest
  end%N.

(** Bits packed eight to a byte, least significant first; the last byte is
    padded with clear bits. *)
Fixpoint pack (fuel : nat) (bits : list bool) : list N :=
  match fuel, bits with
  | O, _ | _, [] => []
  | S fuel', _ => bits_value (firstn 8 bits) :: pack fuel' (skipn 8 bits)
  end.
Definition packed (bits : list bool) : list N := pack (length bits) bits.

(** The positions of the set bits, increasing, counted from [from]. *)
Fixpoint set_positions (from : N) (bits : list bool) : list N :=
  match bits with
  | [] => []
  | true :: rest => from :: set_positions (from + 1) rest
  | false :: rest => set_positions (from + 1) rest
  end.
