(* Which log files there are and what is written to them: src/helper.rs try_init_log and
   log_acess, get_log_names of src/option.rs and src/reverse, over the inherited settings
   (InhModel).

   Left as parameters: whether a file can be opened for appending (can_open) and which
   logger names log4rs accepts (valid_name).  log4rs itself by its documentation: a line
   goes to the logger of its target's name if there is one, otherwise to the root; names
   with :: in them, which log4rs reads as a path, are not modelled. *)
From Coq Require Import String.
From Verif Require Import Base Text TextOps AddrModel ConfModel RouteModel InhModel.
Open Scope N_scope.

(* log::Level as a number: Error 1 .. Trace 5 *)
Definition rank (l : level) : N := match l with LError => 1 | LWarn => 2 | LInfo => 3 | LDebug => 4 | LTrace => 5 end.
(* log::LevelFilter: None is Off *)
Definition passes (l : level) (f : option level) : bool := match f with Some m => rank l <=? rank m | None => false end.

Section Names.
  Context {V : Type}.
  (* reverse/http.rs:498-503, reverse/server.rs:127-132, location.rs:212-214: the order in
     which the settings are visited *)
  Definition all_commons (h : ihttp (V := V)) : list (common (V := V)) :=
    h_comm h :: flat_map (fun s => v_comm s :: map i_comm (v_locs s)) (h_servers h).
  (* reverse/common.rs:235-241: an entry that is there stays *)
  Definition add_names (names : tmap text) (c : common (V := V)) : tmap text := under names (c_log_names c).
  (* src/option.rs:759-765; the stream section is not asked *)
  Definition get_log_names (h : option (ihttp (V := V))) : tmap text :=
    match h with Some h => fold_left add_names (all_commons h) [] | None => [] end.
End Names.

(* src/helper.rs:175-185: the file and the level of an entry *)
Definition log_file (v : text) : text * level :=
  match split_on 32 v with
  | path :: l :: _ => (path, match parse_level l with Some x => x | None => LInfo end)
  | _ => (v, LInfo)
  end.
(* where a line ends up *)
Inductive sink := File (path : text) | Stdout.
(* log4rs::Config: the loggers with their file and level; the root *)
Record logcfg := LogCfg { g_loggers : list (text * (text * level)); g_root : list sink; g_level : option level }.
Section SetUp.
  Context (can_open : text -> bool) (valid_name : text -> bool).
  (* src/helper.rs:174-205: the entries; a file that cannot be opened panics (190) *)
  Fixpoint loggers (names : tmap text) : res unit (list (text * (text * level))) :=
    match names with
    | [] => Ok []
    | (n, v) :: rest =>
      if can_open (fst (log_file v)) then do l <- loggers rest ; Ok ((n, log_file v) :: l) else Panic
    end.
  (* src/helper.rs:192-193: the entry called default is the root's file *)
  Definition default_sink (ls : list (text * (text * level))) : list sink :=
    match lookup leqb (txt "default") ls with Some (p, _) => [File p] | None => [] end.
  (* src/helper.rs:170-228; log4rs refuses invalid logger names and a second appender of
     the same name (stdout), which panics (215); level: default_level, Trace without one *)
  Definition init_log (names : tmap text) (no_stdout : bool) (lvl : option (option level)) : res unit logcfg :=
    do ls <- loggers names ;
    if forallb (fun e => valid_name (fst e)) ls && (no_stdout || negb (has leqb (txt "stdout") ls))
    then Ok (LogCfg ls (default_sink ls ++ (if no_stdout then [] else [Stdout])) (match lvl with Some f => f | None => Some LTrace end))
    else Panic.
End SetUp.
(* log4rs: where a line of this target and level goes *)
Definition sinks (c : logcfg) (target : text) (l : level) : list sink :=
  match lookup leqb target (g_loggers c) with
  | Some (path, m) => if passes l (Some m) then [File path] else []
  | None => if passes l (g_level c) then g_root c else []
  end.
(* src/helper.rs:362-393 log_acess: where the line of a request goes, and its format *)
Definition log_access (c : logcfg) (formats : tmap text) (access : option clog) : option text * list sink :=
  match access with
  | None => (None, [])
  | Some a => match lookup leqb (l_format a) formats with
              | None => (None, [])
              | Some f => match sinks c (l_name a) (l_level a) with [] => (None, []) | s => (Some f, s) end
              end
  end.
(* arg.rs:498-505, 526-533, 558-565: --access-log, as the settings of the section *)
Definition cli_access : clog := CLog (txt "access") (txt "main") LTrace.
(* arg.rs:504, 532, 564 *)
Definition cli_names (path : text) : tmap text := [(txt "access", path)].
