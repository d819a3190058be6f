(* What a command line says, in words: it is a row of options, each written by one of its
   names and followed by its value if it has one; the order does not matter, and an option
   stands at most once unless it may be repeated. *)
From Coq Require Import String.
From Verif Require Import Base Text TextOps AddrModel ConfModel ArgModel OpModel.
Open Scope N_scope.

(* one option as written: which, by what name, with what value *)
Record occ := Occ { oc_spec : spec; oc_name : item; oc_value : option text }.
(* i is the long or the short name of the option *)
Definition a_name (s : spec) (i : item) : Prop :=
  i = ILong (s_long s) \/ exists c, s_short s = Some c /\ i = IShort c.
(* written properly: an option of the table, a name of it, a value unless it is a switch *)
Definition proper (tab : list spec) (o : occ) : Prop :=
  In (oc_spec o) tab /\ a_name (oc_spec o) (oc_name o) /\ (oc_value o = None <-> s_mult (oc_spec o) = Switch).
(* the words *)
Definition written (o : occ) : list item := oc_name o :: match oc_value o with Some w => [IWord w] | None => [] end.
(* the values written for option s, in order *)
Definition values (s : spec) (os : list occ) : list (option text) :=
  flat_map (fun o => if leqb (s_long s) (s_long (oc_spec o)) then [oc_value o] else []) os.
(* no two options share a name *)
Definition distinct (tab : list spec) : Prop :=
  NoDup (map s_long tab) /\ NoDup (flat_map (fun s => match s_short s with Some c => [c] | None => [] end) tab).

(* how the words of the command line spell names and values: a word is one name, or a name
   and a value joined by an equals sign, or a value *)
Inductive spells : text -> list item -> Prop :=
| w_long n : n <> [] -> ~ In 61 n -> spells (txt "--" ++ n) [ILong n]
| w_long_value n v : n <> [] -> ~ In 61 n -> spells (txt "--" ++ n ++ txt "=" ++ v) [ILong n; IWord v]
| w_short c : c <> 45 -> spells (txt "-" ++ [c]) [IShort c]
| w_short_value c v : c <> 45 -> spells (txt "-" ++ [c] ++ txt "=" ++ v) [IShort c; IWord v]
| w_dash : spells (txt "-") [IWord (txt "-")]
| w_value w : hd_error w <> Some 45 -> spells w [IWord w].
(* all words *)
Definition spelled (ws : list text) (l : list item) : Prop := exists ls, Forall2 spells ws ls /\ l = List.concat ls.
(* the names of the levels, in capitals or not *)
Definition level_names : list (string * lfilter) :=
  [("off", FOff); ("error", FLevel LError); ("warn", FLevel LWarn); ("info", FLevel LInfo); ("debug", FLevel LDebug); ("trace", FLevel LTrace)]%string.
(* the same letter, in whatever case *)
Definition same_letter (a b : N) : Prop := a = b \/ 65 <= a <= 90 /\ b = a + 32 \/ 65 <= b <= 90 /\ a = b + 32.
(* a number written with decimal digits *)
Inductive decimal : text -> N -> Prop :=
| dec_one c : 48 <= c <= 57 -> decimal [c] (c - 48)
| dec_more s n c : decimal s n -> 48 <= c <= 57 -> decimal (s ++ [c]) (10 * n + (c - 48)).

Section Meaning.
  (* how the text of a value is read *)
  Context (reads : ty -> text -> val -> Prop).
  (* what the values written for an option come to *)
  Definition means (m : mult) (ws : list (option text)) (vs : list val) : Prop :=
    match m with
    | Switch => ws = [] /\ vs = [VBool false] \/ ws = [None] /\ vs = [VBool true]
    | One t => exists w v, ws = [Some w] /\ reads t w v /\ vs = [v]
    | May t => ws = [] /\ vs = [] \/ exists w v, ws = [Some w] /\ reads t w v /\ vs = [v]
    | Or t d => ws = [] /\ vs = [d] \/ exists w v, ws = [Some w] /\ reads t w v /\ vs = [v]
    | Many t => Forall2 (fun o v => exists w, o = Some w /\ reads t w v) ws vs
    end.
  (* the command line l says that the options have the values a *)
  Definition says (tab : list spec) (os : list occ) (a : list (text * list val)) : Prop :=
    Forall (proper tab) os /\
    Forall2 (fun s x => fst x = s_long s /\ means (s_mult s) (values s os) (snd x)) tab a.

  (* what is written for the option called n *)
  Definition given (n : string) (os : list occ) : list (option text) :=
    flat_map (fun o => if leqb (txt n) (s_long (oc_spec o)) then [oc_value o] else []) os.
  (* a setting that may be missing *)
  Definition may {A} (k : A -> val) (o : option A) : list val := match o with Some x => [k x] | None => [] end.
  (* which option sets which shared setting *)
  Definition shared_by (os : list occ) (sh : shared) : Prop :=
    means (Or TAddr (VAddr (SAddr (V4 0x7f000001) 8837))) (given "control" os) [VAddr (sh_control sh)] /\
    means Switch (given "disable-stdout" os) [VBool (sh_no_stdout sh)] /\
    means Switch (given "disable-control" os) [VBool (sh_no_control sh)] /\
    means Switch (given "daemon" os) [VBool (sh_daemon sh)] /\
    means Switch (given "forever" os) [VBool (sh_forever sh)] /\
    means Switch (given "verbose" os) [VBool (sh_verbose sh)] /\
    means (May TLevel) (given "default-level" os) (may VLevel (sh_level sh)) /\
    means (Or TStr (VStr (txt "wmproxy.pid"))) (given "pidfile" os) [VStr (sh_pid sh)].
  (* where the listening addresses are if none are given: 127.0.0.1:8869 *)
  Definition usual : val := VAddrs [SAddr (V4 0x7f000001) 8869].
  (* the options of proxy and what they hold; HTTP, HTTPS and SOCKS5 are the bits 1, 2 and 4 *)
  Definition proxy_settings : list (string * mult) :=
    [("server-id", Or TNum (VNum 0)); ("bind", May TAddr); ("center-addr", May TAddr); ("flag", Or TFlag (VFlag (1 + 2 + 4)));
     ("server", May TStr); ("user", May TStr); ("pass", May TStr); ("udp-bind", May TIp); ("map-http-bind", May TSock);
     ("map-https-bind", May TSock); ("map-tcp-bind", May TSock); ("map-proxy-bind", May TSock); ("map-cert", May TStr); ("map-key", May TStr);
     ("ts", Switch); ("tc", Switch); ("two-way-tls", Switch); ("domain", May TStr); ("cert", May TStr); ("key", May TStr);
     ("mappings", Many TMapping)]%string.
  (* the settings of proxy, by the names of their options *)
  Definition proxy_by (os : list occ) (x : list (text * list val)) : Prop :=
    Forall (fun p => means (snd p) (given (fst p) os) (got x (fst p))) proxy_settings.
  (* which option sets which setting of the command *)
  Definition command_by (os : list occ) (c : command (list (text * list val))) : Prop :=
    match c with
    | CProxy x => proxy_by os x
    | CRun config | CCheck config => means (One TStr) (given "config" os) [VStr config]
    | CStop config url | CReload config url =>
      means (May TStr) (given "config" os) (may VStr config) /\ means (May TStr) (given "url" os) (may VStr url)
    | CFile a =>
      means (Or TStr (VStr [])) (given "root" os) [VStr (fa_root a)] /\
      means (Or TAddrs usual) (given "listen" os) [VAddrs (fa_listen a)] /\
      means (May TAddrs) (given "listen-ssl" os) (may VAddrs (fa_ssl a)) /\
      means (May TStr) (given "cert" os) (may VStr (fa_cert a)) /\
      means (May TStr) (given "key" os) (may VStr (fa_key a)) /\
      means (May TStr) (given "domain" os) (may VStr (fa_domain a)) /\
      means Switch (given "browse" os) [VBool (fa_browse a)] /\
      means (May TStr) (given "robots" os) (may VStr (fa_robots a)) /\
      means (May TStr) (given "path404" os) (may VStr (fa_404 a)) /\
      (exists d, means (May TDur) (given "cache-time" os) (may VDur d) /\ fa_cache a = option_map (fun n => n / 1000000000) d) /\
      means (Many TStr) (given "ext-mimetype" os) (map VStr (fa_types a)) /\
      means Switch (given "cors" os) [VBool (fa_cors a)] /\
      means (Many THeader) (given "header" os) (map VHeader (fa_headers a)) /\
      means (May TStr) (given "access-log" os) (may VStr (fa_log a))
    | CReverse a =>
      means (Or TAddrs usual) (given "from" os) [VAddrs (ra_from a)] /\
      means (One TAddr) (given "to" os) [VAddr (ra_to a)] /\
      means (Many THeader) (given "header" os) (map VHeader (ra_headers a)) /\
      means (May TStr) (given "access-log" os) (may VStr (ra_log a)) /\
      means Switch (given "tls" os) [VBool (ra_tls a)] /\
      means Switch (given "ws" os) [VBool (ra_ws a)]
    | CWs a =>
      means (Or TAddrs usual) (given "from" os) [VAddrs (wa_from a)] /\
      means (One TAddr) (given "to" os) [VAddr (wa_to a)] /\
      means (May TStr) (given "access-log" os) (may VStr (wa_log a)) /\
      means (One TStr) (given "mode" os) [VStr (wa_mode a)] /\
      means (May TStr) (given "domain" os) (may VStr (wa_domain a)) /\
      means Switch (given "ws" os) [VBool (wa_ws a)]
    | CVersion => True
    end.
End Meaning.
(* the command a line names *)
Definition called {X} (c : command X) : string :=
  match c with
  | CProxy _ => "proxy" | CRun _ => "run" | CStop _ _ => "stop" | CReload _ _ => "reload" | CCheck _ => "check"
  | CFile _ => "file-server" | CReverse _ => "reverse-proxy" | CWs _ => "ws-proxy" | CVersion => "version"
  end.
(* the one-letter names *)
Definition letters {X} (c : command X) : list (string * string) :=
  ("v", "verbose")%string ::
  match c with
  | CProxy _ => [("s", "server-id"); ("b", "bind"); ("c", "center-addr"); ("S", "server")]
  | CRun _ | CCheck _ => [("c", "config")]
  | CStop _ _ | CReload _ _ => [("c", "config"); ("u", "url")]
  | CFile _ => [("r", "root"); ("l", "listen"); ("d", "domain"); ("b", "browse"); ("c", "cache-time"); ("e", "ext-mimetype"); ("H", "header")]
  | CReverse _ => [("f", "from"); ("t", "to"); ("H", "header")]
  | CWs _ => [("f", "from"); ("t", "to")]
  | CVersion => []
  end%string.
(* a name as the command line has it *)
Definition by_letter (c : N) (p : string * string) : Prop := txt (fst p) = [c].
