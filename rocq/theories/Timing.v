(** When the background writes of tokio happen.

    In Io.v the write of a chunk takes effect when its file next waits for it.
    Here it takes effect at any moment from its start on that a schedule chooses,
    for programs that use any number of block writers. *)
From Verif Require Import Base Io Cancel SpecIo.
Open Scope nat_scope.

(** * Programs *)

(** What a program can do with a file: open it for writing, or call a function of
    its block writer.
    src/store/io/default_block_writer.rs:31, 37, 43, 50. *)
Inductive file_call := FOpen (f : path) | FDo (o : writer_op).

(** A program numbers its writers and goes on according to the results of its
    calls.  It may also drop a call of [write_block] that needs more than [n]
    operations of tokio, see Cancel.v, and knows if it did.
    As the callers of src/store/io/default_block_writer.rs:31-52. *)
Inductive client (A : Type) :=
| Finish (a : A)
| Use (i : nat) (c : file_call) (next : result unit -> client A)
| UseWithin (n : nat) (i : nat) (b : list N) (next : option (result unit) -> client A).
Arguments Finish {A}.
Arguments Use {A}.
Arguments UseWithin {A}.

(** The writer with a number, of those a caller of src/store/io/default_block_writer.rs:31 has. *)
Definition set_at {A} (g : nat -> option A) (i : nat) (x : A) : nat -> option A :=
  fun j => if j =? i then Some x else g j.

(** * Its files as in Io.v *)

(** The world, the writers, and the names used so far.
    src/store/io/default_block_writer.rs:25-28, any number of it. *)
Record files := mkfiles { fs_os : world; fs_writer : nat -> option writer; fs_names : list path }.

(** [None] for a number without writer, or a number or name used before.
    src/store/io/default_block_writer.rs:31-52. *)
Definition call_file (st : files) (i : nat) (c : file_call) : option (files * result unit) :=
  match c, fs_writer st i with
  | FOpen f, None =>
      if in_dec path_dec f (fs_names st) then None
      else
        match writer_new (fs_os st) f with
        | (w, Ok wr) => Some (mkfiles w (set_at (fs_writer st) i wr) (f :: fs_names st), Ok tt)
        | (w, Err) => Some (mkfiles w (fs_writer st) (f :: fs_names st), Err)
        end
  | FDo o, Some wr =>
      let '(w, wr, r) := writer_step (fs_os st) wr o in Some (mkfiles w (set_at (fs_writer st) i wr) (fs_names st), r)
  | _, _ => None
  end.

(** A program calls the functions of src/store/io/default_block_writer.rs:31-52
    in turn. *)
Fixpoint run_client {A} (c : client A) (st : files) : option (files * A) :=
  match c with
  | Finish a => Some (st, a)
  | Use i c next =>
      match call_file st i c with
      | Some (st, r) => run_client (next r) st
      | None => None
      end
  | UseWithin n i b next =>
      match fs_writer st i with
      | Some wr =>
          let '(w, wr, r) := writer_write_within n (fs_os st) wr b in
          run_client (next (option_map snd r)) (mkfiles w (set_at (fs_writer st) i wr) (fs_names st))
      | None => None
      end
  end.

(** Before the first call of src/store/io/default_block_writer.rs:31. *)
Definition no_files (w : world) : files := mkfiles w (fun _ => None) [].

(** * Its files with background writes at any moment *)

(** tokio 1.x fs/file.rs, as [tfile] and [writer] of Io.v; a chunk in flight
    comes with the result of its write, once that has happened.
    src/store/io/default_block_writer.rs:25-28. *)
Record bfile := mkbfile { bf_path : path; bf_busy : option (list N * option (result unit)); bf_err : bool; bf_pos : N }.

(** [bs_timing] says, for each moment at which the program enters tokio, which of
    the background threads have come to write since the previous one.
    What src/store/io/default_block_writer.rs:31-52 depends on. *)
Record bfiles := mkbfiles { bs_os : world; bs_file : nat -> option bfile; bs_names : list path; bs_timing : list (list nat) }.

(** A change of one file.
    Part of src/store/io/default_block_writer.rs:37-52. *)
Definition put (st : bfiles) (w : world) (i : nat) (f : bfile) : bfiles :=
  mkbfiles w (set_at (bs_file st) i f) (bs_names st) (bs_timing st).

(** The background thread of a file writes its chunk.
    Part of [write_all], src/store/io/default_block_writer.rs:39. *)
Definition bg_perform (st : bfiles) (i : nat) : bfiles :=
  match bs_file st i with
  | Some (mkbfile p (Some (chunk, None)) err pos) =>
      let '(w, r) := tk_background (bs_os st) p chunk in put st w i (mkbfile p (Some (chunk, Some r)) err pos)
  | _ => st
  end.

(** The next entry of the schedule.
    Any [await] of src/store/io/default_block_writer.rs:32-51. *)
Definition bg_tick (st : bfiles) : bfiles :=
  match bs_timing st with
  | [] => st
  | now :: later => fold_left bg_perform now (mkbfiles (bs_os st) (bs_file st) (bs_names st) later)
  end.

(** Wait for the background write, if any, as [tk_wait].
    Part of [write_all], [flush] and [sync_all], src/store/io/default_block_writer.rs:39, 44, 51. *)
Definition bg_wait (st : bfiles) (i : nat) : bfiles * result unit :=
  let st := bg_perform st i in
  match bs_file st i with
  | Some (mkbfile p (Some (_, Some r)) err pos) => (put st (bs_os st) i (mkbfile p None err pos), r)
  | _ => (st, Ok tt)
  end.

(** Take a kept error, else wait: as the start of [tk_write] and as [tk_flush].
    Part of src/store/io/default_block_writer.rs:39, 44, 51. *)
Definition bg_settle (st : bfiles) (i : nat) : bfiles * result unit :=
  match bs_file st i with
  | Some (mkbfile p busy true pos) => (put st (bs_os st) i (mkbfile p busy false pos), Err)
  | _ => bg_wait st i
  end.

(** As [tk_write]: one round of [write_all].
    Part of src/store/io/default_block_writer.rs:39. *)
Definition bg_write (st : bfiles) (i : nat) (src : list N) : bfiles * result nat :=
  match bg_settle (bg_tick st) i with
  | (st, Err) => (st, Err)
  | (st, Ok _) =>
      let chunk := firstn (wd_max (bs_os st)) src in
      match bs_file st i with
      | Some f => (put st (bs_os st) i (mkbfile (bf_path f) (Some (chunk, None)) (bf_err f) (bf_pos f)), Ok (length chunk))
      | None => (st, Err)
      end
  end.

(** As [tk_write_all].
    src/store/io/default_block_writer.rs:39. *)
Fixpoint bg_write_all (fuel : nat) (st : bfiles) (i : nat) (src : list N) : bfiles * result unit :=
  match src with
  | [] => (st, Ok tt)
  | _ :: _ =>
      match fuel with
      | O => (st, Err)
      | S fuel' =>
          match bg_write st i src with
          | (st, Err) => (st, Err)
          | (st, Ok n) => if n =? 0 then (st, Err) else bg_write_all fuel' st i (skipn n src)
          end
      end
  end.

(** As [tk_write_all_within]: [write_all] when the call may be dropped.
    src/store/io/default_block_writer.rs:39. *)
Fixpoint bg_write_all_within (n : nat) (st : bfiles) (i : nat) (src : list N) : bfiles * option (nat * result unit) :=
  match src with
  | [] => (st, Some (n, Ok tt))
  | _ :: _ =>
      match n with
      | O => (st, None)
      | S n' =>
          match bg_write st i src with
          | (st, Err) => (st, Some (n', Err))
          | (st, Ok k) => if k =? 0 then (st, Some (n', Err)) else bg_write_all_within n' st i (skipn k src)
          end
      end
  end.

(** As [tk_sync_all]: other background threads may write between the wait and the
    sync.
    src/store/io/default_block_writer.rs:51. *)
Definition bg_sync (st : bfiles) (i : nat) : bfiles * result unit :=
  let '(st, r) := bg_settle (bg_tick st) i in
  let st := match r, bs_file st i with
            | Err, Some f => put st (bs_os st) i (mkbfile (bf_path f) (bf_busy f) true (bf_pos f))
            | _, _ => st
            end in
  let st := bg_tick st in
  match bs_file st i, next_fate (bs_os st) with
  | Some f, (None, w) => (put st (effect w (FSync (bf_path f))) i f, Ok tt)
  | Some f, (Some _, w) => (put st w i f, Err)
  | None, _ => (st, Err)
  end.

(** src/store/io/default_block_writer.rs:38: the position moves first. *)
Definition bg_move (st : bfiles) (i : nat) (f : bfile) (b : list N) : bfiles :=
  put st (bs_os st) i (mkbfile (bf_path f) (bf_busy f) (bf_err f) (bf_pos f + N.of_nat (length b))).

(** src/store/io/default_block_writer.rs:37-52. *)
Definition bg_step (st : bfiles) (i : nat) (f : bfile) (o : writer_op) : bfiles * result unit :=
  match o with
  | WBlock b => bg_write_all (length b) (bg_move st i f b) i b
  | WFlush => bg_settle (bg_tick st) i
  | WSync => bg_sync st i
  end.

(** As [call_file].
    src/store/io/default_block_writer.rs:31-52. *)
Definition bg_call (st : bfiles) (i : nat) (c : file_call) : option (bfiles * result unit) :=
  match c, bs_file st i with
  | FOpen f, None =>
      if in_dec path_dec f (bs_names st) then None
      else
        let st := bg_tick st in
        match next_fate (bs_os st) with
        | (None, w) =>
            Some (mkbfiles (effect w (FCreate f)) (set_at (bs_file st) i (mkbfile f None false 0)) (f :: bs_names st) (bs_timing st), Ok tt)
        | (Some _, w) => Some (mkbfiles w (bs_file st) (f :: bs_names st) (bs_timing st), Err)
        end
  | FDo o, Some f => Some (bg_step st i f o)
  | _, _ => None
  end.

(** As [run_client].
    src/store/io/default_block_writer.rs:31-52. *)
Fixpoint bg_client {A} (c : client A) (st : bfiles) : option (bfiles * A) :=
  match c with
  | Finish a => Some (st, a)
  | Use i c next =>
      match bg_call st i c with
      | Some (st, r) => bg_client (next r) st
      | None => None
      end
  | UseWithin n i b next =>
      match bs_file st i with
      | Some f => let '(st, r) := bg_write_all_within n (bg_move st i f b) i b in bg_client (next (option_map snd r)) st
      | None => None
      end
  end.

(** Before the first call of src/store/io/default_block_writer.rs:31. *)
Definition bg_none (w : world) (timing : list (list nat)) : bfiles := mkbfiles w (fun _ => None) [] timing.
