(** Model of /repo/src/server/mod.rs and of the configuration made in
    /repo/src/main.rs.

    Strings are lists of code points.  Version texts (build/mod.rs), help texts
    and the layout of log lines are not modelled. *)
From Verif Require Import Base Config.
Open Scope N_scope.

(** server/mod.rs:20-25 *)
Record config := mkconfig { cf_db_path : list N; cf_gossip_port : N; cf_seeds : list (list N) }.

(** An option of the command line: given there, or in an environment variable,
    or left out; clap prefers them in this order.
    src/main.rs:28, 31, 35 (attribute [env]) *)
Definition given (argument variable : option (list N)) : option (list N) :=
  match argument with Some s => Some s | None => variable end.

(** The digits of [u16::from_str]; [acc] is what was read before.  Multiplying
    and adding are checked.
    The type of the option, src/main.rs:32. *)
Fixpoint u16_digits (acc : N) (s : list N) : option N :=
  match s with
  | [] => Some acc
  | c :: rest =>
      if (48 <=? c) && (c <=? 57) then
        let acc' := acc * 10 + (c - 48) in
        if 65536 <=? acc' then None else u16_digits acc' rest
      else None
  end.

(** [u16::from_str]: one plus sign may stand before the digits.
    The type of the option, src/main.rs:32. *)
Definition u16_from_str (s : list N) : option N :=
  match s with
  | [] => None
  | [c] => if (c =? 43) || (c =? 45) then None else u16_digits 0 s
  | c :: rest => if c =? 43 then u16_digits 0 rest else u16_digits 0 s
  end.

(** main.rs:31 *)
Definition default_gossip_port : list N := [55; 55; 55; 53].

(** What the user gives for each option, on the command line and in the
    environment.  src/main.rs:25-37 [Args] *)
Record inputs := mkinputs {
  in_db_path : option (list N); in_db_path_env : option (list N);
  in_port : option (list N); in_port_env : option (list N);
  in_seeds : option (list N); in_seeds_env : option (list N) }.

(** main.rs:50-66: [None] if clap ends the program with an error message. *)
Definition main_config (i : inputs) : option config :=
  match given (in_db_path i) (in_db_path_env i) with
  | None => None
  | Some path =>
      match u16_from_str (match given (in_port i) (in_port_env i) with Some s => s | None => default_gossip_port end) with
      | None => None
      | Some port => Some (mkconfig path port (parse_seeds (given (in_seeds i) (in_seeds_env i))))
      end
  end.

(** What the program says through [tracing], server/mod.rs:40 and 46. *)
Inductive message := MStarting | MStopping.

(** The global state of the process used by server/mod.rs:49-56: whether a
    default subscriber is set, whether the [log] crate is redirected, and what
    was printed. *)
Record process := mkprocess { pr_subscriber : bool; pr_tracer : bool; pr_printed : list message }.

(** server/mod.rs:49-56 [Meerkat::init_logging]: the subscriber can be set once in
    the life of a process. *)
Definition init_logging (s : process) : outcome process :=
  if pr_subscriber s then Panic PExpect else Ret (mkprocess true true (pr_printed s)).

(** [info!], as called at src/server/mod.rs:40, 46: dropped without a subscriber. *)
Definition say (s : process) (m : message) : process :=
  if pr_subscriber s then mkprocess true (pr_tracer s) (pr_printed s ++ [m]) else s.

(** server/mod.rs:27-29 *)
Record meerkat := mkmeerkat { mk_conf : config }.

(** server/mod.rs:36-41 [Meerkat::start] *)
Definition server_start (s : process) (m : meerkat) : outcome process := let* s1 := init_logging s in Ret (say s1 MStarting).

(** server/mod.rs:43-47 [Meerkat::stop] *)
Definition server_stop (s : process) (m : meerkat) : process := say s MStopping.

(** Calls of one process, on any servers, whose types are src/server/mod.rs:36 and 43. *)
Inductive server_call := CallStart (m : meerkat) | CallStop (m : meerkat).
Fixpoint server_run (s : process) (calls : list server_call) : outcome process :=
  match calls with
  | [] => Ret s
  | CallStart m :: rest => let* s1 := server_start s m in server_run s1 rest
  | CallStop m :: rest => server_run (server_stop s m) rest
  end.
