(** Model of the I/O layer: /repo/src/store/io/default_block_writer.rs,
    unix_disk_block_reader.rs and mod.rs, on top of small models of the library
    code they delegate to (tokio's [fs::File], std's [read_exact_at], futures'
    [buffered]).

    Simplifications.  Positions are unbounded numbers: [pos += block.len()] can
    only wrap after 2^64 bytes were handed to one writer.  Running out of memory
    is not modelled.  The work tokio hands to a background thread takes effect
    when the file object next waits for it, which no later operation on the same
    file can distinguish from any earlier moment. *)
From Verif Require Import Base.
Open Scope nat_scope.

(** * What the file system sees *)

(** src/store/io/default_block_writer.rs:31. *)
Definition path := list N.

(** The effects of the code of /repo on the file system, in order: a file is
    created or emptied, bytes are appended at its end, it is synced to disk.
    Nothing in /repo removes or renames.  Writes go to the end of the file as
    long as each file has one writer: Cursor.v and C80.
    The effects of src/store/io/default_block_writer.rs:32, 39, 44, 51. *)
Inductive fs_event :=
| FCreate (f : path)
| FAppend (f : path) (bytes : list N)
| FSync (f : path).

(** The world outside the program: the effects so far, oldest first; for each
    coming system-level operation whether it succeeds ([None]) or fails, a write
    after having written [k] bytes ([Some k]), all succeeding when the plan is
    used up; and the largest chunk tokio hands to a background write.
    What src/store/io/default_block_writer.rs:32, 39, 44, 51 depend on. *)
Record world := mkworld {
  wd_log : list fs_event;
  wd_plan : list (option nat);
  wd_max : nat
}.

(** The [io::Result]s of src/store/io/default_block_writer.rs:31-52. *)
Definition effect (w : world) (e : fs_event) : world :=
  mkworld (wd_log w ++ [e]) (wd_plan w) (wd_max w).

(** The fate of the next operation.
    Each operation of src/store/io/default_block_writer.rs:32, 39, 44, 51 may fail. *)
Definition next_fate (w : world) : option nat * world :=
  match wd_plan w with
  | [] => (None, w)
  | fate :: rest => (fate, mkworld (wd_log w) rest (wd_max w))
  end.

(** * tokio::fs::File *)

(** tokio 1.x fs/file.rs: a file with, possibly, a chunk being written by a
    background thread ([State::Busy]), and the [last_write_err] kept by
    operations that do not report errors themselves. *)
Record tfile := mktfile {
  tf_path : path;
  tf_busy : option (list N);
  tf_err : bool
}.

(** [File::create]: open for writing, creating or truncating.
    Called at src/store/io/default_block_writer.rs:32. *)
Definition tk_create (w : world) (f : path) : world * result tfile :=
  match next_fate w with
  | (None, w1) => (effect w1 (FCreate f), Ok (mktfile f None false))
  | (Some _, w1) => (w1, Err)
  end.

(** The background [write_all] of one chunk ([Buf::write_to]); the chunk is
    dropped even if it fails half way.
    Part of [write_all], src/store/io/default_block_writer.rs:39. *)
Definition tk_background (w : world) (f : path) (chunk : list N) : world * result unit :=
  match next_fate w with
  | (None, w1) => (effect w1 (FAppend f chunk), Ok tt)
  | (Some k, w1) => (effect w1 (FAppend f (firstn k chunk)), Err)
  end.

(** Wait for the background write, if any ([State::Busy] to [State::Idle]).
    Part of [write_all], [flush] and [sync_all], src/store/io/default_block_writer.rs:39, 44, 51. *)
Definition tk_wait (w : world) (f : tfile) : world * tfile * result unit :=
  match tf_busy f with
  | None => (w, f, Ok tt)
  | Some chunk =>
      let '(w1, r) := tk_background w (tf_path f) chunk in
      (w1, mktfile (tf_path f) None (tf_err f), r)
  end.

(** [AsyncWrite::poll_write], driven to completion: report a kept error; else
    wait for the chunk in flight and report its failure; else take at most
    [wd_max] bytes and start writing them.
    Part of [write_all], src/store/io/default_block_writer.rs:39. *)
Definition tk_write (w : world) (f : tfile) (src : list N) : world * tfile * result nat :=
  if tf_err f then (w, mktfile (tf_path f) (tf_busy f) false, Err)
  else
    match tk_wait w f with
    | (w1, f1, Err) => (w1, f1, Err)
    | (w1, f1, Ok _) =>
        let chunk := firstn (wd_max w1) src in
        (w1, mktfile (tf_path f1) (Some chunk) (tf_err f1), Ok (length chunk))
    end.

(** [AsyncWriteExt::write_all]: repeat until nothing is left; a write of zero
    bytes is an error.
    Called at src/store/io/default_block_writer.rs:39. *)
Fixpoint tk_write_all (fuel : nat) (w : world) (f : tfile) (src : list N)
  : world * tfile * result unit :=
  match src with
  | [] => (w, f, Ok tt)
  | _ :: _ =>
      match fuel with
      | O => (w, f, Err)
      | S fuel' =>
          match tk_write w f src with
          | (w1, f1, Err) => (w1, f1, Err)
          | (w1, f1, Ok n) =>
              if n =? 0 then (w1, f1, Err) else tk_write_all fuel' w1 f1 (skipn n src)
          end
      end
  end.

(** [Inner::poll_flush]: report a kept error, else the outcome of the write in
    flight.
    Called at src/store/io/default_block_writer.rs:44. *)
Definition tk_flush (w : world) (f : tfile) : world * tfile * result unit :=
  if tf_err f then (w, mktfile (tf_path f) (tf_busy f) false, Err) else tk_wait w f.

(** [File::sync_all]: wait for the write in flight keeping its error for later
    ([complete_inflight]), then sync.
    Called at src/store/io/default_block_writer.rs:51. *)
Definition tk_sync_all (w : world) (f : tfile) : world * tfile * result unit :=
  let '(w1, f1, r) := tk_flush w f in
  let f2 := match r with
            | Ok _ => f1
            | Err => mktfile (tf_path f1) (tf_busy f1) true
            end in
  match next_fate w1 with
  | (None, w2) => (effect w2 (FSync (tf_path f2)), f2, Ok tt)
  | (Some _, w2) => (w2, f2, Err)
  end.

(** * The block writer, default_block_writer.rs *)

(** default_block_writer.rs:25-28 *)
Record writer := mkwriter { wr_file : tfile; wr_pos : N }.

(** default_block_writer.rs:31-34 [Writer::new] *)
Definition writer_new (w : world) (f : path) : world * result writer :=
  match tk_create w f with
  | (w1, Ok file) => (w1, Ok (mkwriter file 0%N))
  | (w1, Err) => (w1, Err)
  end.

(** default_block_writer.rs:37-40 [Writer::write_block]: the position moves
    before the write is attempted. *)
Definition writer_write_block (w : world) (wr : writer) (block : list N)
  : world * writer * result unit :=
  let pos := (wr_pos wr + N.of_nat (length block))%N in
  let '(w1, file, r) := tk_write_all (length block) w (wr_file wr) block in
  (w1, mkwriter file pos, r).

(** default_block_writer.rs:43-45 [Writer::flush] *)
Definition writer_flush (w : world) (wr : writer) : world * writer * result unit :=
  let '(w1, file, r) := tk_flush w (wr_file wr) in
  (w1, mkwriter file (wr_pos wr), r).

(** default_block_writer.rs:50-52 [Writer::sync] *)
Definition writer_sync (w : world) (wr : writer) : world * writer * result unit :=
  let '(w1, file, r) := tk_sync_all w (wr_file wr) in
  (w1, mkwriter file (wr_pos wr), r).

(** default_block_writer.rs:54-56 [Writer::pos] *)
Definition writer_pos (wr : writer) : N := wr_pos wr.

(** * The block reader, unix_disk_block_reader.rs and mod.rs *)

(** io/mod.rs:67-76 [OpInfo] *)
Inductive op_info :=
| GenericBlock
| IndexBlock
| DataBlock (first_row_id : N).

(** io/mod.rs:50-62 [ReadOp] with its [BlockRange] *)
Record read_op := mkop { op_start : N; op_end : N; op_tag : op_info }.

(** What one [pread] does when there is something to read: it is interrupted,
    fails, or returns at most [k] bytes (at least one).
    The system calls behind src/store/io/unix_disk_block_reader.rs:67. *)
Inductive pread_event := PInterrupted | PFail | PShort (k : nat).

(** std::os::unix::fs::FileExt [read_exact_at] on a file holding [file]:
    [pread] until [want] bytes arrived; interruptions are retried, end of file is
    an error, and so is an offset that does not fit [off_t].  After the plan is
    used up every [pread] returns as much as it can.
    Called at src/store/io/unix_disk_block_reader.rs:67. *)
Fixpoint read_exact_at (fuel : nat) (file : list N) (plan : list pread_event)
    (want off : N) (acc : list N) : outcome (result (list N)) :=
  if (want =? 0)%N then Ret (Ok acc)
  else
    match fuel with
    | O => NoFuel
    | S fuel' =>
        if (9223372036854775808 <=? off)%N then Ret Err
        else
          let avail := if (N.of_nat (length file) <=? off)%N then []
                       else skipn (N.to_nat off) file in
          let most := N.to_nat (N.min want (N.of_nat (length avail))) in
          let got n rest :=
            if n =? 0 then Ret Err
            else read_exact_at fuel' file rest (want - N.of_nat n)%N (off + N.of_nat n)%N
                   (acc ++ firstn n avail) in
          match plan with
          | [] => got most []
          | PInterrupted :: rest => read_exact_at fuel' file rest want off acc
          | PFail :: _ => Ret Err
          | PShort k :: rest => got (Nat.min most (Nat.max 1 k)) rest
          end
    end.

(** io/mod.rs:111-123 [asyncify]: a panic of the blocking closure becomes an
    error. *)
Definition asyncify {A} (m : outcome (result A)) : outcome (result A) :=
  match m with Panic _ => Ret Err | _ => m end.

(** unix_disk_block_reader.rs:62-71 [Reader::read_block] on a file holding
    [file]; a [Vec] of more than [isize::MAX] bytes panics. *)
Definition read_block (p : profile) (file : list N) (plan : list pread_event)
    (range_start range_end : N) : outcome (result (list N)) :=
  asyncify
    (let* buf_len := sub64 p range_end range_start in
     if (9223372036854775808 <=? buf_len)%N then Panic PExplicit
     else read_exact_at (length plan + length file + 1) file plan buf_len range_start []).

(** unix_disk_block_reader.rs:40-43, 46-55 and 93-95 [Reader::new] and
    [Reader::len]: the length is that of the file when it was opened. *)
Definition reader_len (file_at_open : list N) : N := N.of_nat (length file_at_open).

(** * Batched reads *)

(** unix_disk_block_reader.rs:30 *)
Definition BLOCK_BUFFER_SIZE : nat := 2.

(** The future made for one request by unix_disk_block_reader.rs:78: not polled
    yet, its blocking read running, or the read finished. *)
Inductive fut_state := FNew | FRunning | FReady (r : result (list N)).
Record fut := mkfut { fu_ix : nat; fu_op : read_op; fu_st : fut_state }.

(** futures [Buffered] over a fused [Iter], holding a [FuturesOrdered]: requests
    not started, whether the source has reported its end, futures in progress,
    finished outputs waiting for their turn, and the two indices.
    The state of src/store/io/unix_disk_block_reader.rs:77-79. *)
Record stream := mkstream {
  st_src : list read_op;
  st_done : bool;
  st_run : list fut;
  st_queue : list (nat * (read_op * result (list N)));
  st_in : nat;
  st_out : nat
}.

(** io/mod.rs:79-91: the items of the stream, [Block] or [BlockError]. *)
Record block_item := mkitem { bi_tag : op_info; bi_buf : result (list N) }.

(** What polling the stream of src/store/io/unix_disk_block_reader.rs:77-90 gives. *)
Inductive poll_result := PReady (b : block_item) | PPending | PEnd.

(** unix_disk_block_reader.rs:73-79 [Reader::read_blocks] before the first
    poll. *)
Definition read_blocks (ops : list read_op) : stream := mkstream ops false [] [] 0 0.

(** futures [Buffered::poll_next], first loop: start requests while fewer than
    [BLOCK_BUFFER_SIZE] are unfinished or waiting.
    src/store/io/unix_disk_block_reader.rs:79. *)
Fixpoint fill (fuel : nat) (s : stream) : stream :=
  match fuel with
  | O => s
  | S fuel' =>
      if length (st_run s) + length (st_queue s) <? BLOCK_BUFFER_SIZE then
        match st_src s with
        | [] => mkstream [] true (st_run s) (st_queue s) (st_in s) (st_out s)
        | op :: rest =>
            fill fuel' (mkstream rest (st_done s) (st_run s ++ [mkfut (st_in s) op FNew])
                          (st_queue s) (S (st_in s)) (st_out s))
        end
      else s
  end.

(** Part of src/store/io/unix_disk_block_reader.rs:79. *)
Fixpoint find_fut (ix : nat) (run : list fut) : option fut :=
  match run with
  | [] => None
  | f :: rest => if fu_ix f =? ix then Some f else find_fut ix rest
  end.

(** Part of src/store/io/unix_disk_block_reader.rs:79. *)
Fixpoint set_fut (ix : nat) (st : fut_state) (run : list fut) : list fut :=
  match run with
  | [] => []
  | f :: rest => if fu_ix f =? ix then mkfut ix (fu_op f) st :: rest else f :: set_fut ix st rest
  end.

(** Part of src/store/io/unix_disk_block_reader.rs:79. *)
Fixpoint drop_fut (ix : nat) (run : list fut) : list fut :=
  match run with
  | [] => []
  | f :: rest => if fu_ix f =? ix then rest else f :: drop_fut ix rest
  end.

(** The outcome of a request's blocking read, given how its [pread]s behave.
    src/store/io/unix_disk_block_reader.rs:62-71, 78. *)
Definition read_op_outcome (p : profile) (file : list N) (op : read_op)
    (plan : list pread_event) : option (result (list N)) :=
  match read_block p file plan (op_start op) (op_end op) with Ret r => Some r | _ => None end.

(** futures [FuturesUnordered::poll_next]: polls woken futures in some order
    until one is ready.  [order] lists the futures polled; with a plan, the
    blocking read of that future finishes just before it is polled.
    Part of src/store/io/unix_disk_block_reader.rs:79. *)
Fixpoint poll_unordered (p : profile) (file : list N)
    (order : list (nat * option (list pread_event))) (run : list fut)
  : list fut * list (nat * option (list pread_event)) * option (fut * result (list N)) :=
  match order with
  | [] => (run, [], None)
  | (ix, quick) :: rest =>
      match find_fut ix run with
      | None => poll_unordered p file rest run
      | Some f =>
          match fu_st f with
          | FReady r => (drop_fut ix run, rest, Some (f, r))
          | _ =>
              match quick with
              | None => poll_unordered p file rest (set_fut ix FRunning run)
              | Some plan =>
                  match read_op_outcome p file (fu_op f) plan with
                  | Some r => (drop_fut ix run, rest, Some (f, r))
                  | None => poll_unordered p file rest (set_fut ix FRunning run)
                  end
              end
          end
      end
  end.

(** futures [FuturesOrdered]: the waiting output with the least index
    ([BinaryHeap::peek_mut]) ...
    Part of src/store/io/unix_disk_block_reader.rs:79. *)
Fixpoint heap_peek (q : list (nat * (read_op * result (list N))))
  : option (nat * (read_op * result (list N))) :=
  match q with
  | [] => None
  | e :: rest =>
      match heap_peek rest with
      | Some e' => if fst e' <? fst e then Some e' else Some e
      | None => Some e
      end
  end.

(** ... and its removal ([PeekMut::pop]).
    Part of src/store/io/unix_disk_block_reader.rs:79. *)
Fixpoint heap_remove (ix : nat) (q : list (nat * (read_op * result (list N))))
  : list (nat * (read_op * result (list N))) :=
  match q with
  | [] => []
  | e :: rest => if fst e =? ix then rest else e :: heap_remove ix rest
  end.

(** unix_disk_block_reader.rs:80-89: the closure turning a finished request into
    a stream item. *)
Definition item_of (op : read_op) (r : result (list N)) : block_item := mkitem (op_tag op) r.

(** futures [FuturesOrdered::poll_next], the loop over futures in progress.
    Part of src/store/io/unix_disk_block_reader.rs:79. *)
Fixpoint poll_ordered (fuel : nat) (p : profile) (file : list N)
    (order : list (nat * option (list pread_event))) (s : stream) : stream * poll_result :=
  match fuel with
  | O => (s, PPending)
  | S fuel' =>
      match poll_unordered p file order (st_run s) with
      | (run, rest, Some (f, r)) =>
          if fu_ix f =? st_out s then
            (mkstream (st_src s) (st_done s) run (st_queue s) (st_in s) (S (st_out s)),
             PReady (item_of (fu_op f) r))
          else
            poll_ordered fuel' p file rest
              (mkstream (st_src s) (st_done s) run (st_queue s ++ [(fu_ix f, (fu_op f, r))])
                 (st_in s) (st_out s))
      | (run, _, None) =>
          (mkstream (st_src s) (st_done s) run (st_queue s) (st_in s) (st_out s),
           match run with [] => PEnd | _ :: _ => PPending end)
      end
  end.

(** futures [FuturesOrdered::poll_next]: hand out the waiting output whose turn
    it is, else look at the futures in progress.
    Part of src/store/io/unix_disk_block_reader.rs:79. *)
Definition ordered_next (p : profile) (file : list N)
    (order : list (nat * option (list pread_event))) (s : stream) : stream * poll_result :=
  match heap_peek (st_queue s) with
  | Some (ix, (op, r)) =>
      if ix =? st_out s then
        (mkstream (st_src s) (st_done s) (st_run s) (heap_remove ix (st_queue s))
           (st_in s) (S (st_out s)), PReady (item_of op r))
      else poll_ordered (S (length (st_run s))) p file order s
  | None => poll_ordered (S (length (st_run s))) p file order s
  end.

(** futures [Buffered::poll_next]: start requests, then ask the ordered queue;
    an exhausted queue ends the stream only if the source has ended.
    src/store/io/unix_disk_block_reader.rs:79. *)
Definition poll_stream (p : profile) (file : list N)
    (order : list (nat * option (list pread_event))) (s : stream) : stream * poll_result :=
  match ordered_next p file order (fill (S BLOCK_BUFFER_SIZE) s) with
  | (s2, PEnd) => (s2, if st_done s2 then PEnd else PPending)
  | other => other
  end.

(** What can happen to a batch read: a running blocking read finishes, or the
    consumer polls the stream.
    The caller of src/store/io/unix_disk_block_reader.rs:73-91. *)
Inductive stream_event :=
| EFinish (ix : nat) (plan : list pread_event)
| EPoll (order : list (nat * option (list pread_event))).

(** A blocking read finishes: only one that is running can.
    [spawn_blocking], src/store/io/mod.rs:116. *)
Definition finish (p : profile) (file : list N) (ix : nat) (plan : list pread_event)
    (run : list fut) : list fut :=
  match find_fut ix run with
  | Some f =>
      match fu_st f, read_op_outcome p file (fu_op f) plan with
      | FRunning, Some r => set_fut ix (FReady r) run
      | _, _ => run
      end
  | None => run
  end.

(** The caller of src/store/io/unix_disk_block_reader.rs:73-91. *)
Definition stream_step (p : profile) (file : list N) (s : stream) (e : stream_event)
  : stream * list poll_result :=
  match e with
  | EFinish ix plan =>
      (mkstream (st_src s) (st_done s) (finish p file ix plan (st_run s)) (st_queue s)
         (st_in s) (st_out s), [])
  | EPoll order => let '(s1, r) := poll_stream p file order s in (s1, [r])
  end.

(** A schedule: the events in order, and the answers to the polls.
    The caller of src/store/io/unix_disk_block_reader.rs:73-91. *)
Fixpoint stream_run (p : profile) (file : list N) (s : stream) (es : list stream_event)
  : stream * list poll_result :=
  match es with
  | [] => (s, [])
  | e :: rest =>
      let '(s1, r1) := stream_step p file s e in
      let '(s2, r2) := stream_run p file s1 rest in
      (s2, r1 ++ r2)
  end.
