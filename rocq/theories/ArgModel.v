(* The command line and the life of the process: src/arg.rs, src/main.rs, and
   src/helper.rs try_create_pidfile and try_remove_pidfile.

   bpaf's parsing of the arguments is in OpModel: here a command line is its text (argv)
   together with the command and the shared options it parses to.  Configurations hold
   the fields the commands of arg.rs set; the proxy section and whatever else a file may
   hold is the opaque type X.  Parameters: reading a file, serde's parsers (None: error),
   and what after_load_option does to the http section (None: error) and the stream
   section (InhModel models it). *)
From Coq Require Import String.
From Verif Require Import Base Text TextOps AddrModel ConfModel RouteModel.
Open Scope N_scope.

(* log::LevelFilter (arg.rs:57) *)
Inductive lfilter := FOff | FLevel (l : level).
(* arg.rs:36-61 Shared *)
Record shared := Shared { sh_control : saddr; sh_no_stdout : bool; sh_no_control : bool; sh_daemon : bool; sh_forever : bool;
                          sh_verbose : bool; sh_level : option lfilter; sh_pid : text }.

(* file_server.rs:119-151 FileServer, the fields file-server could set *)
Record afile := AFile { af_root : option text; af_prefix : text; af_types : list (text * text); af_cache : option N;
                        af_robots : option text; af_404 : option text; af_hide : list text; af_browse : bool; af_cors : bool }.
(* location.rs:28-57 LocationConfig, the fields the commands set; al_url: https or not, and the name of the upstream *)
Record aloc := ALoc { al_rule : matcher; al_file : option afile; al_headers : list cheader; al_url : option (bool * text); al_ws : bool }.
(* reverse/server.rs:33-61 with the domain and the access log (name of the log, its file) of its CommonConfig *)
Record aserver := AServer { as_bind : list saddr; as_ssl : list saddr; as_cert : option text; as_key : option text;
                            as_domain : option text; as_up : text; as_mode : text; as_log : option (text * text); as_locs : list aloc }.
(* upstream.rs:62-68, members by address *)
Record aups := AUps { au_name : text; au_bind : text; au_members : list saddr }.
(* reverse/http.rs:91-104 and stream.rs:43-48, with the access log of the CommonConfig *)
Record asection := ASection { ac_servers : list aserver; ac_ups : list aups; ac_log : option (text * text) }.

Section Arg.
  Context {X : Type}.
  (* option.rs:278-297 ConfigOption *)
  Record copt := COpt { o_proxy : option X; o_http : option asection; o_stream : option asection; o_control : saddr;
                        o_no_stdout : bool; o_no_control : bool; o_pid : text; o_level : option lfilter }.
  (* arg.rs:103-151 FileServerConfig; durations in seconds *)
  Record fileargs := FileArgs { fa_root : text; fa_listen : list saddr; fa_ssl : option (list saddr); fa_cert : option text;
    fa_key : option text; fa_domain : option text; fa_browse : bool; fa_robots : option text; fa_404 : option text;
    fa_cache : option N; fa_types : list text; fa_cors : bool; fa_headers : list cheader; fa_log : option text }.
  (* arg.rs:153-179 ReverseProxyConfig *)
  Record revargs := RevArgs { ra_from : list saddr; ra_to : saddr; ra_headers : list cheader; ra_log : option text; ra_tls : bool; ra_ws : bool }.
  (* arg.rs:181-208 WsProxyConfig *)
  Record wsargs := WsArgs { wa_from : list saddr; wa_to : saddr; wa_log : option text; wa_mode : text; wa_domain : option text; wa_ws : bool }.
  (* arg.rs:214-225 *)
  Inductive command :=
  | CProxy (x : X) | CRun (config : text) | CStop (config url : option text) | CReload (config url : option text)
  | CCheck (config : text) | CFile (a : fileargs) | CReverse (a : revargs) | CWs (a : wsargs) | CVersion.

  (* What a run of parse_env comes to.  Asks: the control port at a URL is asked, what
     follows depends on the answer.  Kills: a process is signalled. *)
  Inductive parsed := PStart (o : copt) | PExit (code : Z) | PErr | PPanic | PAsk (url path : text) | PKill (pid : text)
                    | PDaemon (args : list text) | PForever (args : list text).

  Context (read_file : text -> option text) (yaml toml : text -> option copt)
          (load_http : asection -> option asection) (load_stream : asection -> asection) (show_sa : saddr -> text).

  (* Path::file_name for a path that does not end in a slash or dots: after the last
     slash.  A path that does cannot be read as a file. *)
  Definition file_name (p : text) : text := List.last (split_on 47 p) [].
  (* Path::extension: what follows the last dot of the file name, unless that dot is its
     first character *)
  Definition extension (p : text) : option text :=
    match split_on 46 (file_name p) with
    | [] | [_] => None
    | [[]; _] => None
    | parts => Some (List.last parts [])
    end.
  (* arg.rs:294-315 *)
  Definition read_config (p : text) : res unit copt :=
    match read_file p with
    | None => Err tt
    | Some c =>
      match extension p with
      | None => Panic
      | Some e => if leqb e (txt "yaml") then match yaml c with Some o => Ok o | None => Err tt end
                  else if leqb e (txt "toml") then match toml c with Some o => Ok o | None => Err tt end
                  else Err tt
      end
    end.

  (* option.rs:695-703 *)
  Definition after (o : copt) : option copt :=
    let fin h := Some (COpt (o_proxy o) h (option_map load_stream (o_stream o)) (o_control o) (o_no_stdout o) (o_no_control o) (o_pid o) (o_level o)) in
    match o_http o with
    | Some h => match load_http h with Some h' => fin (Some h') | None => None end
    | None => fin None
    end.
  (* arg.rs:392-393 and the like: option.after_load_option()?; return Ok(option) *)
  Definition start (o : copt) : parsed := match after o with Some o' => PStart o' | None => PErr end.
  (* arg.rs:380-388, with the defaults of option.rs:299-312 *)
  Definition from_shared (sh : shared) : copt :=
    COpt None None None (sh_control sh) (sh_no_stdout sh) (sh_no_control sh) (sh_pid sh)
         (if sh_verbose sh then Some (FLevel LTrace) else sh_level sh).
  (* arg.rs:390-394 *)
  Definition with_proxy x (o : copt) := COpt (Some x) (o_http o) (o_stream o) (o_control o) (o_no_stdout o) (o_no_control o) (o_pid o) (o_level o).
  (* arg.rs:508-509, 568-569 *)
  Definition with_http h (o : copt) := COpt (o_proxy o) (Some h) (o_stream o) (o_control o) (o_no_stdout o) true (o_pid o) (o_level o).
  (* arg.rs:536-537 *)
  Definition with_stream h (o : copt) := COpt (o_proxy o) (o_http o) (Some h) (o_control o) (o_no_stdout o) true (o_pid o) (o_level o).
  (* arg.rs:407-409 *)
  Definition with_verbose (v : bool) (o : copt) :=
    COpt (o_proxy o) (o_http o) (o_stream o) (o_control o) (o_no_stdout o) (o_no_control o) (o_pid o)
         (if v then Some (FLevel LTrace) else o_level o).

  (* matcher.rs:49-55 Matcher::new *)
  Definition any_rule : matcher := Matcher (Some (txt "*")) None None None None None.
  (* file_server.rs:183-203 FileServer::new with an empty prefix *)
  Definition new_file (root : text) : afile :=
    AFile (match root with [] => None | _ => Some root end) [] [] None None None [] true false.
  (* arg.rs:498-505: the log is called access *)
  Definition access (f : option text) : option (text * text) := option_map (fun p => (txt "access", p)) f.
  (* reverse/server.rs:24-26 *)
  Definition default_mode : text := txt "tcp".
  (* reverse/server.rs:28-30 *)
  Definition default_up : text := [].

  (* arg.rs:472-512; None: exit(0) *)
  Definition file_section (a : fileargs) : option asection :=
    let file := new_file (fa_root a) in
    let file := AFile (af_root file) (af_prefix file) (af_types file) (fa_cache a) (fa_robots a) (fa_404 a)
                      (af_hide file) (af_browse file) (fa_cors a) in
    let loc := ALoc any_rule (Some file) (fa_headers a) None false in
    match fa_ssl a with
    | Some ssl =>
      match fa_cert a, fa_key a with
      | Some c, Some k => Some (ASection [AServer (fa_listen a) ssl (Some c) (Some k) (fa_domain a) default_up default_mode None [loc]] [] (access (fa_log a)))
      | _, _ => None
      end
    | None => Some (ASection [AServer (fa_listen a) [] None None None default_up default_mode None [loc]] [] (access (fa_log a)))
    end.
  (* arg.rs:541-572 *)
  Definition reverse_section (a : revargs) : asection :=
    let loc := ALoc any_rule None (ra_headers a) (Some (ra_tls a, txt "server")) (ra_ws a) in
    ASection [AServer (ra_from a) [] None None None default_up default_mode None [loc]]
             [AUps (txt "server") [] [ra_to a]] (access (ra_log a)).
  (* char::to_ascii_lowercase *)
  Definition lower (c : N) : N := if (65 <=? c) && (c <=? 90) then c + 32 else c.
  (* arg.rs:519-523 *)
  Definition mode_ok (m : text) : bool :=
    let l := map lower m in leqb l (txt "ws2tcp") || leqb l (txt "tcp2ws") || leqb l (txt "tcp2wss").
  (* arg.rs:513-540; None: exit(0) *)
  Definition ws_section (a : wsargs) : option asection :=
    if mode_ok (wa_mode a)
    then Some (ASection [AServer (wa_from a) [] None None (wa_domain a) (txt "server") (wa_mode a) (access (wa_log a)) []]
                        [AUps (txt "server") [] [wa_to a]] None)
    else None.

  (* arg.rs:414-419, 446-451: whom stop and reload ask *)
  Definition asked (config url : option text) (path : text) (otherwise : parsed) : parsed :=
    match config with
    | Some p => match read_config p with
                | Ok o => PAsk (txt "http://" ++ show_sa (o_control o)) path
                | Err _ => PErr
                | Panic => PPanic
                end
    | None => match url with Some u => PAsk u path | None => otherwise end
    end.

  (* arg.rs:335-578 *)
  Definition parse_env (argv : list text) (c : command) (sh : shared) : parsed :=
    if sh_daemon sh && sh_forever sh then PExit 0
    else if sh_daemon sh then PDaemon (filter (fun s => negb (leqb s (txt "--daemon"))) argv)
    else if sh_forever sh then PForever (filter (fun s => negb (leqb s (txt "--forever"))) argv)
    else
    match c with
    | CProxy x => start (with_proxy x (from_shared sh))
    | CCheck p => match read_config p with Panic => PPanic | _ => PExit 0 end
    | CRun p => match read_config p with Ok o => start (with_verbose (sh_verbose sh) o) | Err _ => PErr | Panic => PPanic end
    | CStop cfg url => asked cfg url (txt "/stop")
                         (match read_file (sh_pid sh) with Some pid => PKill pid | None => PErr end)
    | CReload cfg url => asked cfg url (txt "/reload") (PExit 0)
    | CFile a => match file_section a with Some s => start (with_http s (from_shared sh)) | None => PExit 0 end
    | CReverse a => start (with_http (reverse_section a) (from_shared sh))
    | CWs a => match ws_section a with Some s => start (with_stream s (from_shared sh)) | None => PExit 0 end
    | CVersion => PExit 0
    end.

  (* arg.rs:395-404: what check prints *)
  Definition check_says (p : text) : res unit bool :=
    match read_config p with Ok _ => Ok true | Err _ => Ok false | Panic => Panic end.

  (* arg.rs:428-442, 456-470: the answer of the control port: none (connecting, sending or
     parsing failed), the channel ended without answer, a status *)
  Inductive reply := RFail | RClosed | RStatus (s : N).
  (* arg.rs:437-442, 465-470: the status of the process, and whether success is printed *)
  Definition after_ask (r : reply) : option bool * parsed :=
    match r with RFail => (None, PErr) | RClosed => (None, PPanic) | RStatus s => (Some (s =? 200), PExit 0) end.
  (* arg.rs:317-333 and 423; killed: the exit code of kill, None if a signal ended it *)
  Definition after_kill (kill : text -> option Z) (pid : text) : parsed :=
    match pid with [] => PExit (-1) | _ => PExit (match kill pid with Some c => c | None => 0 end) end.

  (* ---- the process: main.rs:16-33 ---- *)
  (* control/server.rs:66-97, 157-211: start_serve has no error of its own.  It returns Ok
     once the servers have ended, be it because they were stopped or because one of them
     could not start or failed, which is only logged; or it never returns. *)
  Inductive served := SStopped | SFailed | SForever.
  (* main.rs:16-33: the exit status, None if the process does not end by itself or what
     follows is decided by after_ask, after_kill or supervise.  An error is printed and
     main returns; a panic (also of try_init_log, helper.rs:170-228) makes it 101. *)
  Definition exit_status (p : parsed) (log_ok : copt -> bool) (serve : copt -> served) : option Z :=
    match p with
    | PStart o => if log_ok o then match serve o with SStopped | SFailed => Some 0%Z | SForever => None end else Some 101%Z
    | PExit c => Some c
    | PErr => Some 0%Z
    | PPanic => Some 101%Z
    | PDaemon _ => Some 0%Z
    | PAsk _ _ | PKill _ | PForever _ => None
    end.
End Arg.
Arguments copt : clear implicits.
Arguments parsed : clear implicits.
Arguments command : clear implicits.

(* stream.rs:110-127: what a server of the stream section does with a TCP connection,
   by its bind_mode *)
Inductive conversion := WsToTcp | TcpToWs | TcpToWss | Plain.
(* stream.rs:110-127 *)
Definition converts (mode : text) : conversion :=
  if leqb mode (txt "ws2tcp") then WsToTcp else if leqb mode (txt "tcp2ws") then TcpToWs
  else if leqb mode (txt "tcp2wss") then TcpToWss else Plain.

(* ---- supervision: arg.rs:351-371 ---- *)
(* what became of the child, in order: an exit status (None: ended by a signal), or wait
   failed *)
Inductive wait := WExit (status : option Z) | WErr.
(* ExitStatus::success *)
Definition success (w : wait) : bool := match w with WExit (Some 0%Z) => true | _ => false end.
(* the command lines started, the i-th child having had the i-th fate, and whether the
   supervisor has ended *)
Fixpoint supervise (args : list text) (fates : list wait) : list (list text) * bool :=
  match fates with
  | [] => ([args], false)
  | w :: fs => if success w then ([args], true) else let '(l, b) := supervise args fs in (args :: l, b)
  end.

(* ---- the pid file: helper.rs:151-167, main.rs:19-23 and arg.rs:420-423 ---- *)
(* The file holds the number of a process; numbers are given by the system.  live: the
   servers running with this pid file. *)
Record pst := PSt { p_file : option N; p_live : list N }.
(* A server starts (writing its file may fail, the result is ignored); it ends by itself
   (control/server.rs start_serve returned); it is ended by a signal; wmproxy stop reads
   the file and sends SIGTERM, for which wmproxy has no handler. *)
Inductive pev := PvStart (pid : N) (writable : bool) | PvEnd (pid : N) | PvKilled (pid : N) | PvStop.
(* the process ends without removing its file (no code runs) *)
Definition gone (p : N) (s : pst) : pst := PSt (p_file s) (filter (fun q => negb (q =? p)) (p_live s)).
(* main.rs:16-25 with helper.rs:151-167, and arg.rs:420-423; the process a signal is sent to *)
Definition pstep (s : pst) (e : pev) : pst * option N :=
  match e with
  | PvStart p w => (PSt (if w then Some p else p_file s) (p :: p_live s), None)
  | PvEnd p => if existsb (N.eqb p) (p_live s)
               then (PSt (match p_file s with Some q => if q =? p then None else Some q | None => None end)
                         (filter (fun q => negb (q =? p)) (p_live s)), None)
               else (s, None)
  | PvKilled p => (gone p s, None)
  | PvStop => (match p_file s with Some q => gone q s | None => s end, p_file s)
  end.
(* model only: all events *)
Fixpoint prun (s : pst) (es : list pev) : pst * list (option N) :=
  match es with
  | [] => (s, [])
  | e :: es' => let '(s1, o) := pstep s e in let '(s2, os) := prun s1 es' in (s2, o :: os)
  end.
