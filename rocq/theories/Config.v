(** Model of the seed list parsing of /repo/src/main.rs.

    A string is the list of its characters, as code points.  The rest of main.rs
    is in Server.v. *)
From Verif Require Import Base.
Open Scope N_scope.

(** [char::is_whitespace] (Unicode property White_Space), which [str::trim]
    uses.
    Used at src/main.rs:64. *)
Definition is_white (c : N) : bool :=
  ((9 <=? c) && (c <=? 13)) || (c =? 32) || (c =? 133) || (c =? 160) || (c =? 5760)
  || ((8192 <=? c) && (c <=? 8202)) || (c =? 8232) || (c =? 8233) || (c =? 8239) || (c =? 8287) || (c =? 12288).

(** [str::split] with a [char] pattern, collected: there is always at least one
    piece.
    Called at src/main.rs:63. *)
Fixpoint split_on (sep : N) (s : list N) : list (list N) :=
  match s with
  | [] => [[]]
  | c :: rest =>
      if c =? sep then [] :: split_on sep rest
      else match split_on sep rest with
           | [] => [[c]]
           | piece :: pieces => (c :: piece) :: pieces
           end
  end.

(** [str::trim_start]
    Part of [trim], src/main.rs:64. *)
Fixpoint trim_start (s : list N) : list N :=
  match s with
  | [] => []
  | c :: rest => if is_white c then trim_start rest else s
  end.

(** [str::trim]: the same from both ends.
    Called at src/main.rs:64. *)
Definition str_trim (s : list N) : list N := rev (trim_start (rev (trim_start s))).

(** main.rs:60-65 *)
Definition parse_seeds (seeds : option (list N)) : list (list N) :=
  map str_trim (split_on 44 (match seeds with Some s => s | None => [] end)).
