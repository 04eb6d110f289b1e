(** Specification vocabulary for segments. *)
From Verif Require Import Base Buffers Sink Io SpecIo Metadata SpecProto ReadBlock Names Segment.
From Coq Require Import Permutation.
Open Scope nat_scope.

(** * What a user does with a segment writer *)

Inductive col_op := CWrite (b : bin_buf) | CClose.

(** A column is opened, used and dropped; the segment can be closed at any time
    in between. *)
Inductive seg_op := SColumn (ci : column_info) (ops : list col_op) | SClose (it : iteration).

Definition column_step (p : profile) (w : world) (sg : segment) (cw : column_writer) (o : col_op)
  : outcome (world * segment * column_writer * result unit) :=
  match o with
  | CWrite b => column_write p w sg cw b
  | CClose => column_close p w sg cw
  end.

(** The reports of all the calls, in order. *)
Fixpoint column_run (p : profile) (w : world) (sg : segment) (cw : column_writer) (ops : list col_op)
  : outcome (world * segment * list (result unit)) :=
  match ops with
  | [] => Ret (w, sg, [])
  | o :: rest =>
      let* r := column_step p w sg cw o in
      let '(w, sg, cw, res) := r in
      let* r := column_run p w sg cw rest in
      let '(w, sg, more) := r in Ret (w, sg, res :: more)
  end.

Definition seg_step (p : profile) (w : world) (sg : segment) (o : seg_op)
  : outcome (world * segment * list (result unit)) :=
  match o with
  | SColumn ci ops =>
      match new_binary_column_writer sg ci with
      | (sg, Err) => Ret (w, sg, [Err])
      | (sg, Ok cw) =>
          let* r := column_run p w sg cw ops in
          let '(w, sg, reports) := r in Ret (w, sg, Ok tt :: reports)
      end
  | SClose it => let '(w, sg, r) := segment_close w sg it in Ret (w, sg, [r])
  end.

Fixpoint seg_run (p : profile) (w : world) (sg : segment) (ops : list seg_op)
  : outcome (world * segment * list (result unit)) :=
  match ops with
  | [] => Ret (w, sg, [])
  | o :: rest =>
      let* r := seg_step p w sg o in
      let '(w, sg, reports) := r in
      let* r := seg_run p w sg rest in
      let '(w, sg, more) := r in Ret (w, sg, reports ++ more)
  end.

(** No call reported an error. *)
Definition all_ok (reports : list (result unit)) : Prop := Forall (fun r => r = Ok tt) reports.

(** Iterating over a hash map visits every entry once. *)
Definition orders_ok (ops : list seg_op) : Prop :=
  Forall (fun o => match o with
                   | SClose it => (forall l, Permutation l (it_columns it l)) /\ (forall l, Permutation l (it_layouts it l))
                   | SColumn _ _ => True
                   end) ops.

(** * What is expected to be in the files *)

(** The blocks, with their row identifiers, that the encoder of a column writes
    when nothing goes wrong. *)
Fixpoint encoder_run (p : profile) (e : bin_encoder) (ops : list col_op) (sofar : list (N * list N))
  : outcome (list (N * list N)) :=
  match ops with
  | [] => Ret sofar
  | CWrite b :: rest =>
      let* r := bin_encode collect p e b sofar in
      let '(e, sofar, _) := r in encoder_run p e rest sofar
  | CClose :: rest =>
      let* r := bin_flush collect p e sofar in
      let '(e, sofar, _) := r in encoder_run p e rest sofar
  end.

Definition column_blocks (p : profile) (ci : column_info) (ops : list col_op) : outcome (list (N * list N)) :=
  match new_binary_encoder (ci_encoding ci) 128 (ci_nullable ci) with
  | Ok e => encoder_run p e ops []
  | Err => Ret []
  end.

(** The blocks of all columns, in the order written. *)
Fixpoint segment_blocks (p : profile) (ops : list seg_op) : outcome (list (N * list N)) :=
  match ops with
  | [] => Ret []
  | SColumn ci cops :: rest =>
      let* b := column_blocks p ci cops in
      let* more := segment_blocks p rest in Ret (b ++ more)
  | SClose _ :: rest => segment_blocks p rest
  end.

(** The columns closed, in order; one closed several times is there as often. *)
Definition closed_in (o : seg_op) : list column_info :=
  match o with
  | SColumn ci cops => flat_map (fun c => match c with CClose => [ci] | CWrite _ => [] end) cops
  | SClose _ => []
  end.

Definition closed_columns (ops : list seg_op) : list column_info := flat_map closed_in ops.

(** Closed columns and, where it happened, closes of the segment. *)
Definition marks_in (o : seg_op) : list (column_info + iteration) :=
  match o with
  | SColumn _ _ => map inl (closed_in o)
  | SClose it => [inr it]
  end.

Definition outline (ops : list seg_op) : list (column_info + iteration) := flat_map marks_in ops.

(** The last column with a name. *)
Definition last_named (name : list N) (cols : list column_info) : option column_info :=
  find (fun ci => if list_eq_dec N.eq_dec name (ci_name ci) then true else false) (rev cols).

(** * A reader of index files *)

(** "MEERKAT_IDX1", anything, the metadata, and its position in eight bytes. *)
Definition read_index_file (bytes : list N) : option metadata :=
  let n := length bytes in
  let pos := N.to_nat (le_value (skipn (n - 8) bytes)) in
  if (20 <=? n) && (12 <=? pos) && (pos <=? n - 8) then
    if list_eq_dec N.eq_dec (firstn 12 bytes) [77; 69; 69; 82; 75; 65; 84; 95; 73; 68; 88; 49]%N
    then read_metadata (firstn (n - 8 - pos) (skipn pos bytes))
    else None
  else None.

(** * Crashes *)

(** What a crash may leave of a file that holds [cur] and whose first [synced]
    bytes were synced: these are intact; of the others, a part may be missing
    at the end and any may read as zero. *)
Definition survives (synced : nat) (cur left : list N) : Prop :=
  synced <= length left <= length cur
  /\ forall i, i < length left -> nth i left 0%N = nth i cur 0%N \/ (synced <= i /\ nth i left 0%N = 0%N).

(** A file while the program runs: its contents, how much of them was synced,
    what a crash might restore instead because nothing was synced since, and
    whether its name has reached the disk. *)
Record crash_file := mkcf {
  cf_cur : option (list N);
  cf_synced : nat;
  cf_older : option (list N) -> Prop;
  cf_named : bool }.

(** What is left of it by a crash. *)
Definition crash_leaves (c : crash_file) (left : option (list N)) : Prop :=
  cf_older c left
  \/ match cf_cur c, left with
     | Some cur, Some l => survives (cf_synced c) cur l
     | None, None => True
     | _, _ => False
     end.

(** [sync_names]: whether syncing a new file also makes its name durable.  POSIX
    does not say so (one has to sync the directory, too), common Linux file
    systems do it. *)
Definition crash_step (sync_names : bool) (f : path) (c : crash_file) (e : fs_event) : crash_file :=
  match e with
  | FCreate g => if path_dec f g then mkcf (Some []) 0 (crash_leaves c) (cf_named c) else c
  | FAppend g bytes =>
      if path_dec f g then mkcf (option_map (fun cur => cur ++ bytes) (cf_cur c)) (cf_synced c) (cf_older c) (cf_named c) else c
  | FSync g =>
      if path_dec f g then
        let named := cf_named c || sync_names in
        mkcf (cf_cur c) (match cf_cur c with Some cur => length cur | None => 0 end)
             (fun left => named = false /\ left = None) named
      else c
  end.

(** The directories a crash may leave after the effects [log], started from the
    directory [d], all of which is on disk. *)
Definition after_crash (sync_names : bool) (d : directory) (log : list fs_event) (d' : directory) : Prop :=
  forall f, crash_leaves
    (fold_left (crash_step sync_names f) log
       (mkcf (d f) (match d f with Some c => length c | None => 0 end) (fun _ => False)
             (match d f with Some _ => true | None => false end)))
    (d' f).
