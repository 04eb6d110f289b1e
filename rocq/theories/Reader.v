(** Opening a file for reading: src/store/io/unix_disk_block_reader.rs. *)
From Verif Require Import Base Io SpecIo.

(** unix_disk_block_reader.rs:40-43 [Reader].  The handle is modelled by the path
    it was opened with: nothing in the crate removes or renames a file, and
    creating one again keeps it. *)
Record reader := mkreader { rd_file : path; rd_len : N }.

(** unix_disk_block_reader.rs:46-56 [Reader::new]; [open_fails] and
    [metadata_fails] tell whether the system reports an error where none is
    due. *)
Definition reader_new (open_fails metadata_fails : bool) (d : directory) (f : path) : result reader :=
  if open_fails then Err
  else match d f with
       | None => Err
       | Some file => if metadata_fails then Err else Ok (mkreader f (reader_len file))
       end.

(** unix_disk_block_reader.rs:62-71 [Reader::read_block], of the file as it is
    now. *)
Definition reader_read_block (p : profile) (d : directory) (r : reader) (plan : list pread_event) (s e : N) : outcome (result (list N)) :=
  match d (rd_file r) with
  | Some file => read_block p file plan s e
  | None => Ret Err
  end.
