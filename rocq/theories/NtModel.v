(* The configuration as text: what /now shows (control/server.rs:121-129,
   serde_json::to_string_pretty of the option) and what a file with that text is read as
   (json is yaml).

   The structs are FmModel's tables.  derive(Serialize) writes every field under its name,
   Option::None as null, a Vec as a list, a HashMap and a struct as a table; nothing is
   left out (no skip_serializing_if; upstream.rs:57 status is skipped both ways).  Strings,
   numbers and booleans are single values, here by their text.  The fields under
   serde_as(DisplayFromStr) (option.rs:211-295, reverse/common.rs:29-70,
   reverse/location.rs:33-51, reverse/server.rs:35-50, reverse/http.rs:97,
   reverse/matcher.rs:38-45, plugins/file_server.rs:128-132, mapping/config.rs:34,
   config/mod.rs:37-83) are written with Display and read with FromStr. *)
From Coq Require Import String.
From Verif Require Import Base Text TextOps AddrModel ConfModel RouteModel RwModel FmModel.
Open Scope N_scope.

(* the text forms other libraries give: std's IpAddr and SocketAddr, wenmeng's Rate,
   webparse's Url, Method, Scheme and StatusCode; the addresses of this machine; the rate
   wenmeng has as default *)
Record lib := Lib {
  parse_ip : text -> option ipaddr; show_ip : ipaddr -> text;
  parse_sa : text -> option saddr; show_sa : saddr -> text; local4 : option ipaddr; local6 : option ipaddr;
  show_rate : N * N -> text; default_rate : N * N;
  parse_url : text -> option text; show_url : text -> text;
  parse_method : text -> option text; show_method : text -> text;
  parse_scheme : text -> option text; show_scheme : text -> text;
  status_ok : N -> bool; show_status : N -> text }.

(* the types of single values *)
Inductive kind :=
  | KText | KNum (max : N) | KBool | KDur | KRate | KLog | KErrorLog | KLimit | KZone | KIps | KIp | KAddr | KWrap | KAddrs
  | KUrl | KHeader | KTries | KMethods | KSchemes | KRule | KFlag | KLevel.
(* model only: the names FmModel gives the types (String and StaticResponse, a text, are
   the rest); a number of seconds is a u64 (upstream.rs:46 DurationSeconds<u64>) *)
Definition kinds : list (text * kind) :=
  [(txt "usize", KNum u64_max); (txt "u16", KNum u16_max); (txt "u32", KNum (2 ^ 32 - 1)); (txt "DurationSeconds", KNum u64_max); (txt "bool", KBool);
   (txt "ConfigDuration", KDur); (txt "ConfigRate", KRate); (txt "ConfigLog", KLog); (txt "ErrorLog", KErrorLog); (txt "LimitReq", KLimit); (txt "LimitReqZone", KZone);
   (txt "IpSets", KIps); (txt "IpAddr", KIp); (txt "SocketAddr", KAddr); (txt "WrapAddr", KWrap); (txt "WrapVecAddr", KAddrs); (txt "Url", KUrl);
   (txt "ConfigHeader", KHeader); (txt "TryPathsConfig", KTries); (txt "MatchMethod", KMethods); (txt "MatchScheme", KSchemes); (txt "Matcher", KRule);
   (txt "Flag", KFlag); (txt "LevelFilter", KLevel)].
(* model only *)
Definition kind_of (k : leaf) : kind := match lookup leqb k kinds with Some x => x | None => KText end.
(* the values; a level of None is LevelFilter::Off *)
Inductive one :=
  | OText (s : text) | ONum (n : N) | OBool (b : bool) | ODur (d : N) | ORate (r : N * N) | OLog (l : clog) | OLimit (r : lreq) | OZone (z : lzone)
  | OIps (l : list gate) | OIp (a : ipaddr) | OAddr (a : saddr) | OAddrs (l : list saddr) | OUrl (u : text) | OHead (h : cheader) | OTries (y : tries)
  | OSet (l : list text) | ORule (m : RouteModel.matcher) | OFlag (b : N) | OLevel (l : option level).
(* a configuration: nothing, a single value, a list, a table *)
Inductive data := DNone | DOne (x : one) | DList (l : list data) | DTab (t : list (text * data)).

(* model only: an option as a result *)
Definition some {A} (o : option A) : res unit A := match o with Some x => Ok x | None => Err tt end.
(* model only: all results in order, or the first failure *)
Fixpoint every {A} (l : list (res unit A)) : res unit (list A) :=
  match l with [] => Ok [] | r :: l' => do x <- r ; do xs <- every l' ; Ok (x :: xs) end.

Section Text.
  Context (L : lib).
  (* the Serialize of one value: config/duration.rs:73-88, config/rate.rs:61-65,
     config/log.rs:47-59, reverse/limit_req.rs:99-146, config/ip_sets.rs:62-112,
     config/wrap.rs:53-57 and 114-122, config/header.rs:131-145, reverse/try_paths.rs:62-66,
     reverse/matcher.rs:149-215, flag.rs:87-110, plugins/static_response.rs:46-50 *)
  Definition show_one (k : kind) (x : one) : res unit text :=
    match x with
    | OText s => Ok s
    | ONum n => Ok (show n)
    | OBool b => Ok (if b then txt "true" else txt "false")
    | ODur d => show_dur d
    | ORate r => Ok (show_rate L r)
    | OLog l => Ok (show_log l)
    | OLimit r => Ok (show_lreq r)
    | OZone z => show_zone z
    | OIps l => Ok (AddrModel.show_set (show_ip L) l)
    | OIp a => Ok (show_ip L a)
    | OAddr a => Ok (show_sa L a)
    | OAddrs l => Ok (show_list (show_sa L) l)
    | OUrl u => Ok (show_url L u)
    | OHead h => Ok (show_header h)
    | OTries y => Ok (show_tries (show_status L) y)
    | OSet l => Ok (show_set (match k with KSchemes => show_scheme L | _ => show_method L end) l)
    | ORule m => Ok (show_rule m)
    | OFlag b => Ok (show_flag b)
    | OLevel l => Ok (match l with Some v => show_level v | None => txt "OFF" end)
    end.
  (* the Deserialize of one value: config/duration.rs:42-69, config/rate.rs:43-58,
     config/log.rs:61-79 (and common.rs:158-163 afterwards), reverse/limit_req.rs:110-177,
     config/ip_sets.rs:44-102, config/wrap.rs:45-51 and 76-112, config/header.rs:90-129,
     reverse/try_paths.rs:38-60, reverse/matcher.rs:135-203, flag.rs:58-84,
     plugins/static_response.rs:36-44 *)
  Definition read_one (k : kind) (s : text) : res unit one :=
    match k with
    | KText => Ok (OText s)
    | KNum max => do n <- some (parse_uint max s) ; Ok (ONum n)
    | KBool => if leqb s (txt "true") then Ok (OBool true) else if leqb s (txt "false") then Ok (OBool false) else Err tt
    | KDur => do d <- parse_dur s ; Ok (ODur d)
    | KRate => do r <- parse_rate s ; Ok (ORate r)
    | KLog => do l <- parse_log s ; Ok (OLog l)
    | KErrorLog => do l <- parse_log s ; Ok (OLog (as_error l))
    | KLimit => do r <- parse_lreq s ; Ok (OLimit r)
    | KZone => do z <- parse_zone (default_rate L) s ; Ok (OZone z)
    | KIps => do l <- AddrModel.parse_set (parse_ip L) s ; Ok (OIps l)
    | KIp => do a <- some (parse_ip L s) ; Ok (OIp a)
    | KAddr => do a <- some (parse_sa L s) ; Ok (OAddr a)
    | KWrap => do a <- parse_one (parse_sa L) (local4 L) (local6 L) s ; Ok (OAddr a)
    | KAddrs => do l <- parse_list (parse_sa L) (local4 L) (local6 L) s ; Ok (OAddrs l)
    | KUrl => do u <- some (parse_url L s) ; Ok (OUrl u)
    | KHeader => do h <- parse_header s ; Ok (OHead h)
    | KTries => Ok (OTries (parse_tries (status_ok L) s))
    | KMethods => do l <- some (parse_set (parse_method L) leqb s) ; Ok (OSet l)
    | KSchemes => do l <- some (parse_set (parse_scheme L) leqb s) ; Ok (OSet l)
    | KRule => Ok (ORule (rule_of s))
    | KFlag => do b <- parse_flag s ; Ok (OFlag b)
    | KLevel => if leqb (map upper s) (txt "OFF") then Ok (OLevel None) else do l <- some (parse_level s) ; Ok (OLevel (Some l))
    end.

  (* derive(Serialize): control/server.rs:122; a value that is not of the type cannot occur
     (Err) *)
  Fixpoint dump (s : schema) (d : data) : res unit val :=
    match s with
    | Leaf k => match d with DOne x => do t <- show_one (kind_of k) x ; Ok (VOne t) | _ => Err tt end
    | Opt s' => match d with DNone => Ok VNull | _ => dump s' d end
    | Vec s' => match d with DList l => do vs <- every (map (dump s') l) ; Ok (VList vs) | _ => Err tt end
    | Map s' => match d with DTab t => do vs <- every (map (fun kd => do v <- dump s' (snd kd) ; Ok (fst kd, v)) t) ; Ok (VTab vs) | _ => Err tt end
    | TextOr s' => dump s' d
    | Struct fs =>
      match d with
      | DTab t =>
        do vs <- (fix go (fs : list (text * (bool * schema))) (t : list (text * data)) : res unit (list (text * val)) :=
                    match fs, t with
                    | (k, (_, s')) :: fs', (_, d') :: t' => do v <- dump s' d' ; do r <- go fs' t' ; Ok ((k, v) :: r)
                    | _, _ => Ok []
                    end) fs t ;
        Ok (VTab vs)
      | _ => Err tt
      end
    end.
  Context (dflt : text -> schema -> data).
  (* derive(Deserialize) as in FmModel (option.rs:274-297 and the structs it holds), with the
     values: a field that is not in the file has its default (dflt, not modelled further);
     a rule written as a text is its path (reverse/mod.rs:66-71, reverse/matcher.rs:194-203) *)
  Fixpoint load (s : schema) (v : val) : res unit data :=
    match s with
    | Leaf k => match v with VOne t => do x <- read_one (kind_of k) t ; Ok (DOne x) | _ => Err tt end
    | Opt s' => match v with VNull => Ok DNone | _ => load s' v end
    | Vec s' => match v with VList l => do ds <- every (map (load s') l) ; Ok (DList ds) | _ => Err tt end
    | Map s' => match v with VTab t => do ds <- every (map (fun kv => do d <- load s' (snd kv) ; Ok (fst kv, d)) t) ; Ok (DTab ds) | _ => Err tt end
    | TextOr s' =>
      match v with
      | VOne t => Ok (DTab [(txt "path", DOne (OText t)); (txt "client_ip", DNone); (txt "remote_ip", DNone); (txt "host", DNone); (txt "method", DNone); (txt "scheme", DNone)])
      | _ => load s' v
      end
    | Struct fs =>
      match v with
      | VTab t =>
        do ds <- (fix go (fs : list (text * (bool * schema))) : res unit (list (text * data)) :=
                    match fs with
                    | [] => Ok []
                    | (k, (must, s')) :: fs' =>
                      match lookup leqb k t with
                      | None => if must then Err tt else do r <- go fs' ; Ok ((k, dflt k s') :: r)
                      | Some x => do d <- load s' x ; do r <- go fs' ; Ok ((k, d) :: r)
                      end
                    end) fs ;
        Ok (DTab ds)
      | _ => Err tt
      end
    end.
End Text.
