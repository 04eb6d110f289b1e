(** Specification vocabulary for files: what a directory holds after a sequence
    of file system effects. *)
From Verif Require Import Base Io.
Open Scope nat_scope.

Definition path_dec (f g : path) : {f = g} + {f <> g} := list_eq_dec N.eq_dec f g.

(** A directory: for each name, the bytes of the file, if there is one. *)
Definition directory := path -> option (list N).

Definition apply_effect (d : directory) (e : fs_event) : directory :=
  fun f =>
    match e with
    | FCreate g => if path_dec f g then Some [] else d f
    | FAppend g bytes =>
        if path_dec f g then option_map (fun c => c ++ bytes) (d f) else d f
    | FSync _ => d f
    end.

(** The directory after the effects [log], started from [d]. *)
Definition directory_after (d : directory) (log : list fs_event) : directory :=
  fold_left apply_effect log d.

(** What a user of a block writer does with it. *)
Inductive writer_op := WBlock (b : list N) | WFlush | WSync.

Definition writer_step (w : world) (wr : writer) (o : writer_op) : world * writer * result unit :=
  match o with
  | WBlock b => writer_write_block w wr b
  | WFlush => writer_flush w wr
  | WSync => writer_sync w wr
  end.

Fixpoint writer_run (w : world) (wr : writer) (ops : list writer_op)
  : world * writer * list (result unit) :=
  match ops with
  | [] => (w, wr, [])
  | o :: rest =>
      let '(w1, wr1, r) := writer_step w wr o in
      let '(w2, wr2, rs) := writer_run w1 wr1 rest in
      (w2, wr2, r :: rs)
  end.

(** The bytes handed to the writer, in order. *)
Fixpoint blocks_of (ops : list writer_op) : list N :=
  match ops with
  | [] => []
  | WBlock b :: rest => b ++ blocks_of rest
  | _ :: rest => blocks_of rest
  end.

(** Every write and every flush reported success (syncs may have failed). *)
Definition reports_ok (ops : list writer_op) (rs : list (result unit)) : Prop :=
  Forall2 (fun o r => o = WSync \/ r = Ok tt) ops rs.

(** Nothing the operating system is asked to do fails. *)
Definition all_succeed (w : world) : Prop := Forall (fun fate => fate = None) (wd_plan w).
