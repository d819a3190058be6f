(* The options of the command line: the tables bpaf's derive makes of the structs of
   src/arg.rs:36-212 and src/option.rs:200-267, and how a command line is read with them.

   bpaf itself (version 0.9) is modelled by what it does with these tables: an argument
   is taken together with the word after it, wherever it stands, as long as neither was used before; each option in the
   order of its struct; what is left over is refused.  Not modelled: a lone double dash, several
   short options or a short option and its value in one word (items gives None for such
   words), the help text.  An error before a crash hides the crash here; bpaf may go on to
   the crash (no statement depends on it). *)
From Coq Require Import String.
From Verif Require Import Base Text TextOps AddrModel ConfModel ArgModel.
Open Scope N_scope.

(* the types of the fields: String, u32, WrapAddr, WrapVecAddr, Flag, IpAddr, SocketAddr,
   MappingConfig, ConfigHeader, ConfigDuration, LevelFilter *)
Inductive ty := TStr | TNum | TAddr | TAddrs | TFlag | TIp | TSock | TMapping | THeader | TDur | TLevel.
(* their values, and bool *)
Inductive val := VStr (t : text) | VNum (n : N) | VAddr (a : saddr) | VAddrs (l : list saddr) | VFlag (b : N) | VIp (a : ipaddr)
               | VSock (a : saddr) | VHeader (h : cheader) | VDur (d : N) | VLevel (l : lfilter) | VBool (b : bool).
(* a bool; T; Option<T>; T with fallback; Vec<T> *)
Inductive mult := Switch | One (t : ty) | May (t : ty) | Or (t : ty) (v : val) | Many (t : ty).
(* a field: its long name, its short name, its type *)
Record spec := Spec { s_long : text; s_short : option N; s_mult : mult }.

(* an item of the command line after bpaf has split names from values; Gone: it was used *)
Inductive item := ILong (name : text) | IShort (c : N) | IWord (w : text) | Gone.
(* bpaf: one word of the command line *)
Definition split_word (w : text) : option (list item) :=
  match w with
  | 45 :: 45 :: r =>
    match span (fun c => negb (c =? 61)) r with
    | ([], _) => None
    | (n, []) => Some [ILong n]
    | (n, _ :: v) => Some [ILong n; IWord v]
    end
  | [45] => Some [IWord w]
  | [45; c] => Some [IShort c]
  | 45 :: c :: 61 :: v => Some [IShort c; IWord v]
  | 45 :: _ => None
  | _ => Some [IWord w]
  end.
(* bpaf: all words *)
Fixpoint items (ws : list text) : option (list item) :=
  match ws with
  | [] => Some []
  | w :: ws' => match split_word w, items ws' with Some a, Some b => Some (a ++ b) | _, _ => None end
  end.

Section Op.
  (* the text forms of std::net (AddrModel) and the addresses of this machine *)
  Context (parse_ip : text -> option ipaddr) (parse_sa : text -> option saddr) (local4 local6 : option ipaddr).

  (* log::LevelFilter::from_str *)
  Definition parse_filter (s : text) : option lfilter :=
    if leqb (map upper s) (txt "OFF") then Some FOff else option_map FLevel (parse_level s).
  (* an option as a result *)
  Definition or_err {A} (o : option A) : res unit A := match o with Some a => Ok a | None => Err tt end.
  (* u32::from_str, wrap.rs:45-51 and 76-112, flag.rs:58-84, mapping/config.rs:68-74 (todo!()),
     header.rs:90-129, duration.rs:42-69 *)
  Definition of_text (t : ty) (s : text) : res unit val :=
    match t with
    | TStr => Ok (VStr s)
    | TNum => do n <- or_err (parse_uint (2 ^ 32 - 1) s) ; Ok (VNum n)
    | TAddr => do a <- parse_one parse_sa local4 local6 s ; Ok (VAddr a)
    | TAddrs => do l <- parse_list parse_sa local4 local6 s ; Ok (VAddrs l)
    | TFlag => do b <- parse_flag s ; Ok (VFlag b)
    | TIp => do a <- or_err (parse_ip s) ; Ok (VIp a)
    | TSock => do a <- or_err (parse_sa s) ; Ok (VSock a)
    | TMapping => Panic
    | THeader => do h <- parse_header s ; Ok (VHeader h)
    | TDur => do d <- parse_dur s ; Ok (VDur d)
    | TLevel => do l <- or_err (parse_filter s) ; Ok (VLevel l)
    end.

  (* the item is a name of the field *)
  Definition named (s : spec) (i : item) : bool :=
    match i with
    | ILong n => leqb n (s_long s)
    | IShort c => match s_short s with Some d => c =? d | None => false end
    | IWord _ | Gone => false
    end.
  (* bpaf switch: the first occurrence of the name *)
  Fixpoint take_switch (s : spec) (l : list item) : option (list item) :=
    match l with
    | [] => None
    | i :: r => if named s i then Some (Gone :: r) else option_map (cons i) (take_switch s r)
    end.
  (* bpaf argument: the first occurrence of the name, and the word after it *)
  Fixpoint take_arg (s : spec) (l : list item) : res unit (option (text * list item)) :=
    match l with
    | [] => Ok None
    | i :: r =>
      if named s i then match r with IWord w :: r' => Ok (Some (w, Gone :: Gone :: r')) | _ => Err tt end
      else do o <- take_arg s r ; Ok (option_map (fun x => (fst x, i :: snd x)) o)
    end.
  (* bpaf many: as long as there are occurrences *)
  Fixpoint take_many (t : ty) (s : spec) (n : nat) (l : list item) : res unit (list val * list item) :=
    match n with
    | O => Ok ([], l)
    | S n =>
      do o <- take_arg s l ;
      match o with
      | None => Ok ([], l)
      | Some (w, l') => do v <- of_text t w ; do x <- take_many t s n l' ; Ok (v :: fst x, snd x)
      end
    end.
  (* bpaf: one field *)
  Definition read_field (s : spec) (l : list item) : res unit (list val * list item) :=
    match s_mult s with
    | Switch => Ok (match take_switch s l with Some l' => ([VBool true], l') | None => ([VBool false], l) end)
    | One t => do o <- take_arg s l ; match o with Some (w, l') => do v <- of_text t w ; Ok ([v], l') | None => Err tt end
    | May t => do o <- take_arg s l ; match o with Some (w, l') => do v <- of_text t w ; Ok ([v], l') | None => Ok ([], l) end
    | Or t d => do o <- take_arg s l ; match o with Some (w, l') => do v <- of_text t w ; Ok ([v], l') | None => Ok ([d], l) end
    | Many t => take_many t s (length l) l
    end.
  (* bpaf construct!: the fields in order *)
  Fixpoint read_fields (tab : list spec) (l : list item) : res unit (list (text * list val) * list item) :=
    match tab with
    | [] => Ok ([], l)
    | s :: tab' => do x <- read_field s l ; do y <- read_fields tab' (snd x) ; Ok ((s_long s, fst x) :: fst y, snd y)
    end.
  (* the item was used *)
  Definition used (i : item) : bool := match i with Gone => true | _ => false end.
  (* bpaf to_options: nothing may be left *)
  Definition read_items (tab : list spec) (l : list item) : res unit (list (text * list val)) :=
    do x <- read_fields tab l ; if forallb used (snd x) then Ok (fst x) else Err tt.
End Op.

(* ---- the tables ---- *)
(* a field with its names *)
Definition f (long : string) (m : mult) : spec := Spec (txt long) None m.
(* bpaf(short(c), long) *)
Definition fs (c : string) (long : string) (m : mult) : spec := Spec (txt long) (hd_error (txt c)) m.
(* arg.rs:36-61 Shared; 127.0.0.1:8837 *)
Definition shared_tab : list spec :=
  [f "control" (Or TAddr (VAddr (SAddr localhost 8837))); f "disable-stdout" Switch; f "disable-control" Switch; f "daemon" Switch;
   f "forever" Switch; fs "v" "verbose" Switch; f "default-level" (May TLevel); f "pidfile" (Or TStr (VStr (txt "wmproxy.pid")))]%string.
(* option.rs:200-267 ProxyConfig; flag.rs:34-38 Flag::default *)
Definition proxy_tab : list spec :=
  [fs "s" "server-id" (Or TNum (VNum 0)); fs "b" "bind" (May TAddr); fs "c" "center-addr" (May TAddr);
   f "flag" (Or TFlag (VFlag 7)); fs "S" "server" (May TStr); f "user" (May TStr); f "pass" (May TStr); f "udp-bind" (May TIp);
   f "map-http-bind" (May TSock); f "map-https-bind" (May TSock); f "map-tcp-bind" (May TSock); f "map-proxy-bind" (May TSock);
   f "map-cert" (May TStr); f "map-key" (May TStr); f "ts" Switch; f "tc" Switch; f "two-way-tls" Switch;
   f "domain" (May TStr); f "cert" (May TStr); f "key" (May TStr); f "mappings" (Many TMapping)]%string.
(* arg.rs:63-77 RunConfig, CheckConfig *)
Definition run_tab : list spec := [fs "c" "config" (One TStr)]%string.
(* arg.rs:79-101 StopConfig, ReloadConfig *)
Definition stop_tab : list spec := [fs "c" "config" (May TStr); fs "u" "url" (May TStr)]%string.
(* 127.0.0.1:8869 *)
Definition default_listen : val := VAddrs [SAddr localhost 8869].
(* arg.rs:103-151 FileServerConfig *)
Definition file_tab : list spec :=
  [fs "r" "root" (Or TStr (VStr [])); fs "l" "listen" (Or TAddrs default_listen); f "listen-ssl" (May TAddrs); f "cert" (May TStr); f "key" (May TStr);
   fs "d" "domain" (May TStr); fs "b" "browse" Switch; f "robots" (May TStr); f "path404" (May TStr); fs "c" "cache-time" (May TDur);
   fs "e" "ext-mimetype" (Many TStr); f "cors" Switch; fs "H" "header" (Many THeader); f "access-log" (May TStr)]%string.
(* arg.rs:153-179 ReverseProxyConfig *)
Definition reverse_tab : list spec :=
  [fs "f" "from" (Or TAddrs default_listen); fs "t" "to" (One TAddr); fs "H" "header" (Many THeader); f "access-log" (May TStr); f "tls" Switch; f "ws" Switch]%string.
(* arg.rs:181-208 WsProxyConfig *)
Definition ws_tab : list spec :=
  [fs "f" "from" (Or TAddrs default_listen); fs "t" "to" (One TAddr); f "access-log" (May TStr); f "mode" (One TStr); f "domain" (May TStr); f "ws" Switch]%string.
(* arg.rs:227-292: the commands *)
Inductive cname := NProxy | NRun | NStop | NReload | NCheck | NFile | NReverse | NWs | NVersion.
(* arg.rs:227-292 the names of the commands *)
Definition cnames : list (text * cname) := map (fun x => (txt (fst x), snd x))
  [("proxy", NProxy); ("run", NRun); ("stop", NStop); ("reload", NReload); ("check", NCheck); ("file-server", NFile);
   ("reverse-proxy", NReverse); ("ws-proxy", NWs); ("version", NVersion)]%string.
(* arg.rs:227-292: the command's own options, then the shared ones *)
Definition own_tab (c : cname) : list spec :=
  match c with
  | NProxy => proxy_tab | NRun | NCheck => run_tab | NStop | NReload => stop_tab | NFile => file_tab
  | NReverse => reverse_tab | NWs => ws_tab | NVersion => []
  end.
(* construct!(command, shared()) *)
Definition tab (c : cname) : list spec := own_tab c ++ shared_tab.

(* ---- the values of the fields ---- *)
(* the fields read, by name *)
Definition got (a : list (text * list val)) (n : string) : list val := match lookup leqb (txt n) a with Some l => l | None => [] end.
(* the value of a field, by its type; other values do not occur *)
Definition o_str (l : list val) : option text := match l with [VStr t] => Some t | _ => None end.
(* String *)
Definition g_str (l : list val) : text := match o_str l with Some t => t | None => [] end.
(* Vec<String> *)
Definition m_str (l : list val) : list text := flat_map (fun v => match v with VStr t => [t] | _ => [] end) l.
(* bool *)
Definition g_bool (l : list val) : bool := match l with [VBool b] => b | _ => false end.
(* WrapVecAddr *)
Definition o_addrs (l : list val) : option (list saddr) := match l with [VAddrs x] => Some x | _ => None end.
(* WrapVecAddr with a fallback *)
Definition g_addrs (l : list val) : list saddr := match o_addrs l with Some x => x | None => [] end.
(* WrapAddr *)
Definition g_addr (l : list val) : saddr := match l with [VAddr x] => x | _ => SAddr localhost 0 end.
(* Vec<ConfigHeader> *)
Definition m_header (l : list val) : list cheader := flat_map (fun v => match v with VHeader h => [h] | _ => [] end) l.
(* ConfigDuration, in nanoseconds *)
Definition o_dur (l : list val) : option N := match l with [VDur d] => Some d | _ => None end.
(* LevelFilter *)
Definition o_level (l : list val) : option lfilter := match l with [VLevel x] => Some x | _ => None end.
(* arg.rs:36-61 *)
Definition shared_of (a : list (text * list val)) : shared :=
  Shared (g_addr (got a "control")) (g_bool (got a "disable-stdout")) (g_bool (got a "disable-control")) (g_bool (got a "daemon"))
         (g_bool (got a "forever")) (g_bool (got a "verbose")) (o_level (got a "default-level")) (g_str (got a "pidfile")).
(* arg.rs:214-225, 227-292: the proxy section is left as the fields read; durations of
   FileServerConfig in seconds *)
Definition command_of (c : cname) (a : list (text * list val)) : command (list (text * list val)) :=
  match c with
  | NProxy => CProxy a
  | NRun => CRun (g_str (got a "config"))
  | NStop => CStop (o_str (got a "config")) (o_str (got a "url"))
  | NReload => CReload (o_str (got a "config")) (o_str (got a "url"))
  | NCheck => CCheck (g_str (got a "config"))
  | NFile => CFile (FileArgs (g_str (got a "root")) (g_addrs (got a "listen")) (o_addrs (got a "listen-ssl")) (o_str (got a "cert")) (o_str (got a "key"))
      (o_str (got a "domain")) (g_bool (got a "browse")) (o_str (got a "robots")) (o_str (got a "path404")) (option_map (fun d => d / ns) (o_dur (got a "cache-time")))
      (m_str (got a "ext-mimetype")) (g_bool (got a "cors")) (m_header (got a "header")) (o_str (got a "access-log")))
  | NReverse => CReverse (RevArgs (g_addrs (got a "from")) (g_addr (got a "to")) (m_header (got a "header")) (o_str (got a "access-log")) (g_bool (got a "tls")) (g_bool (got a "ws")))
  | NWs => CWs (WsArgs (g_addrs (got a "from")) (g_addr (got a "to")) (o_str (got a "access-log")) (g_str (got a "mode")) (o_str (got a "domain")) (g_bool (got a "ws")))
  | NVersion => CVersion
  end.
(* arg.rs:335-336 parse_command().run(): the words after the name of the program.  None: a
   form that is not modelled (as is an option before the command, of which there is only
   --help); Err: refused with a message and exit status 1 *)
Definition command_line parse_ip parse_sa local4 local6 (ws : list text) : option (res unit (command (list (text * list val)) * shared)) :=
  match ws with
  | [] => Some (Err tt)
  | w :: ws' =>
    match lookup leqb w cnames, items ws' with
    | Some c, Some l => Some (do a <- read_items parse_ip parse_sa local4 local6 (tab c) l ; Ok (command_of c a, shared_of a))
    | None, _ => match w with 45 :: _ => None | _ => Some (Err tt) end
    | _, None => None
    end
  end.
