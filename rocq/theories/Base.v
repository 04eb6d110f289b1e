(** Common vocabulary of the model: outcomes, machine arithmetic, and Rust's
    vector and slice operations.  Nothing here models a particular file of
    /repo; every definition says which Rust construct it stands for. *)
From Coq Require Export List Bool Arith NArith ZArith Lia.
From Coq Require Export ZifyBool ZifyNat ZifyN.
Export ListNotations.

(** Why a Rust computation panicked. *)
Inductive panic_kind :=
| PIndex      (* slice or vector index out of bounds *)
| POverflow   (* arithmetic overflow with overflow checks on *)
| PAssert     (* assert! / assert_eq! *)
| PExpect     (* Option::expect / Result::expect / unwrap *)
| PExplicit.  (* panic!(..) *)

(** The outcome of running Rust code: a value, a panic, or -- only for loops run
    on explicit fuel -- "not finished yet". *)
Inductive outcome (A : Type) :=
| Ret (a : A)
| Panic (k : panic_kind)
| NoFuel.
Arguments Ret {A} a.
Arguments Panic {A} k.
Arguments NoFuel {A}.

Definition bind {A B} (m : outcome A) (f : A -> outcome B) : outcome B :=
  match m with Ret a => f a | Panic k => Panic k | NoFuel => NoFuel end.

Notation "'let*' x ':=' m 'in' k" := (bind m (fun x => k))
  (at level 200, x pattern, m at level 100, k at level 200, right associativity).

Definition is_ret {A} (m : outcome A) : Prop := exists a, m = Ret a.
Definition is_panic {A} (m : outcome A) : Prop := exists k, m = Panic k.

(** Rust's [Result] with the error payload dropped (no code of /repo inspects
    an error; only whether there is one is observable to the model). *)
Inductive result (A : Type) := Ok (a : A) | Err.
Arguments Ok {A} a.
Arguments Err {A}.

(** Build profile: [Debug] has overflow checks on, [Release] wraps (cargo's
    defaults; /repo/Cargo.toml overrides no profile). *)
Inductive profile := Debug | Release.

Open Scope N_scope.

Definition u8_lim : N := 256.
Definition u32_lim : N := 4294967296.
Definition u64_lim : N := 18446744073709551616.
Definition u32_max : N := 4294967295.

(** [a + b] on an unsigned type with [lim] values. *)
Definition uadd (lim : N) (p : profile) (a b : N) : outcome N :=
  if a + b <? lim then Ret (a + b)
  else match p with Debug => Panic POverflow | Release => Ret ((a + b) mod lim) end.

(** [a - b] on an unsigned type with [lim] values. *)
Definition usub (lim : N) (p : profile) (a b : N) : outcome N :=
  if b <=? a then Ret (a - b)
  else match p with Debug => Panic POverflow | Release => Ret (a + lim - b) end.

Definition add32 := uadd u32_lim.
Definition sub32 := usub u32_lim.
Definition add64 := uadd u64_lim.
Definition sub64 := usub u64_lim.

(** [a << k] on u32 / u64 with [k] below the width: never panics, drops the
    bits shifted out. *)
Definition shl32 (a k : N) : N := N.shiftl a k mod u32_lim.
Definition shl64 (a k : N) : N := N.shiftl a k mod u64_lim.

Close Scope N_scope.
Open Scope nat_scope.

(** [v[i]] *)
Definition idx {A} (l : list A) (i : nat) : outcome A :=
  match nth_error l i with Some x => Ret x | None => Panic PIndex end.

(** [v[i] = x] on an index already known to be in range. *)
Fixpoint set_nth {A} (l : list A) (i : nat) (x : A) : list A :=
  match l, i with
  | [], _ => []
  | _ :: l', O => x :: l'
  | y :: l', S i' => y :: set_nth l' i' x
  end.

(** [v[i] = x] *)
Definition upd {A} (l : list A) (i : nat) (x : A) : outcome (list A) :=
  if i <? length l then Ret (set_nth l i x) else Panic PIndex.

(** [&v[s..e]] *)
Definition slice {A} (l : list A) (s e : nat) : outcome (list A) :=
  if (s <=? e) && (e <=? length l) then Ret (firstn (e - s) (skipn s l)) else Panic PIndex.

(** [&v[s..]] *)
Definition slice_from {A} (l : list A) (s : nat) : outcome (list A) :=
  if s <=? length l then Ret (skipn s l) else Panic PIndex.

(** [v.resize(n, x)] *)
Definition resize {A} (l : list A) (n : nat) (x : A) : list A :=
  firstn n l ++ repeat x (n - length l).

(** [bool as usize] *)
Definition b2n (b : bool) : nat := if b then 1 else 0.

(** A byte string is a list of numbers below 256. *)
Definition byte_ok (b : N) : Prop := (b < 256)%N.
Definition bytes_ok (l : list N) : Prop := Forall byte_ok l.
