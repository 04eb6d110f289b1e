(** Files as the operating system has them: every open file has a position of its
    own at which the next write goes.

    Io.v describes a write by a block writer as appending to its file.  That is
    what it is as long as nobody else writes to the file: block writers open
    their file with [File::create] (default_block_writer.rs:32), which truncates
    it and starts at position 0, without [O_APPEND].  Here this is spelled out,
    so that it can be shown when the two views agree, and what happens to a file
    that two writers have open (PropsCursor.v).

    Simplification: offsets are unbounded; a name always means the same file, as
    nothing in /repo removes or renames files. *)
From Verif Require Import Base Io SpecIo.
Open Scope nat_scope.

(** What is done with open files, each known by a number: the effects of
    default_block_writer.rs:32, 39 and 51. *)
Inductive handle_event :=
| HCreate (h : nat) (f : path)
| HWrite (h : nat) (bytes : list N)
| HSync (h : nat).

(** The contents of the files, and for every open file its name and position.
    The state behind the [File] of default_block_writer.rs:26. *)
Record disk := mkdisk { dk_files : directory; dk_handles : nat -> option (path * nat) }.

(** write(2) at a position, as called by default_block_writer.rs:39: what was
    there is replaced; a gap before it reads as zero; no bytes have no effect. *)
Definition overwrite (old : list N) (pos : nat) (bytes : list N) : list N :=
  match bytes with
  | [] => old
  | _ => firstn pos old ++ repeat 0%N (pos - length old) ++ bytes ++ skipn (pos + length bytes) old
  end.

(** One effect, default_block_writer.rs:32, 39 and 51. *)
Definition handle_step (d : disk) (e : handle_event) : disk :=
  match e with
  | HCreate h f =>
      mkdisk (fun g => if path_dec g f then Some [] else dk_files d g)
             (fun k => if k =? h then Some (f, 0) else dk_handles d k)
  | HWrite h bytes =>
      match dk_handles d h with
      | Some (f, pos) =>
          mkdisk (fun g => if path_dec g f then option_map (fun old => overwrite old pos bytes) (dk_files d g) else dk_files d g)
                 (fun k => if k =? h then Some (f, pos + length bytes) else dk_handles d k)
      | None => d
      end
  | HSync _ => d
  end.

(** A program starts with no file of its own open (default_block_writer.rs:31-34
    is the only place where one is opened). *)
Definition no_handles (d : directory) : disk := mkdisk d (fun _ => None).

(** The effects [log], default_block_writer.rs:32, 39 and 51. *)
Definition disk_after (d : disk) (log : list handle_event) : disk := fold_left handle_step log d.

(** The effect of a block writer for [f] whose open file has the number [hs f]:
    a [Writer] keeps the one it opened, default_block_writer.rs:25-34. *)
Definition through (hs : path -> nat) (e : fs_event) : handle_event :=
  match e with
  | FCreate f => HCreate (hs f) f
  | FAppend f bytes => HWrite (hs f) bytes
  | FSync f => HSync (hs f)
  end.
