(* Which configurations survive being shown and read again. *)
From Coq Require Import String.
From Verif Require Import Base Text TextOps AddrModel AddrSpec ConfModel ConfSpec RouteModel RwModel RwSpec FmModel FmSpec NtModel.
Open Scope N_scope.

(* what the single values of the configuration are, by the name of their type: a port is a
   number of 16 bits, a count and a number of seconds one of 64; a listening address may
   leave the host out, other addresses may not; an error log has no format, other logs have
   one; all other types are texts *)
Definition types : list (text * kind) :=
  [(txt "usize", KNum 18446744073709551615); (txt "u16", KNum 65535); (txt "u32", KNum 4294967295); (txt "DurationSeconds", KNum 18446744073709551615); (txt "bool", KBool);
   (txt "ConfigDuration", KDur); (txt "ConfigRate", KRate); (txt "ConfigLog", KLog); (txt "ErrorLog", KErrorLog); (txt "LimitReq", KLimit); (txt "LimitReqZone", KZone);
   (txt "IpSets", KIps); (txt "IpAddr", KIp); (txt "SocketAddr", KAddr); (txt "WrapAddr", KWrap); (txt "WrapVecAddr", KAddrs); (txt "Url", KUrl);
   (txt "ConfigHeader", KHeader); (txt "TryPathsConfig", KTries); (txt "MatchMethod", KMethods); (txt "MatchScheme", KSchemes); (txt "Matcher", KRule);
   (txt "Flag", KFlag); (txt "LevelFilter", KLevel)].
Definition type_of (k : text) : kind := match lookup leqb k types with Some x => x | None => KText end.
(* a value of a type *)
Definition of_kind (k : kind) (x : one) : Prop :=
  match k, x with
  | KText, OText _ | KNum _, ONum _ | KBool, OBool _ | KDur, ODur _ | KRate, ORate _ | KLog, OLog _ | KErrorLog, OLog _ | KLimit, OLimit _ | KZone, OZone _
  | KIps, OIps _ | KIp, OIp _ | KAddr, OAddr _ | KWrap, OAddr _ | KAddrs, OAddrs _ | KUrl, OUrl _ | KHeader, OHead _ | KTries, OTries _ | KMethods, OSet _ | KSchemes, OSet _
  | KRule, ORule _ | KFlag, OFlag _ | KLevel, OLevel _ => True
  | _, _ => False
  end.
(* a configuration of a type: a struct has its fields, each of its type *)
Inductive typed : schema -> data -> Prop :=
| ty_leaf k x : of_kind (type_of k) x -> typed (Leaf k) (DOne x)
| ty_none s : typed (Opt s) DNone
| ty_some s d : d <> DNone -> typed s d -> typed (Opt s) d
| ty_vec s l : (forall d, In d l -> typed s d) -> typed (Vec s) (DList l)
| ty_map s t : (forall k d, In (k, d) t -> typed s d) -> typed (Map s) (DTab t)
| ty_or s t : typed s (DTab t) -> typed (TextOr s) (DTab t)
| ty_struct fs t : map fst t = map fst fs -> (forall k b s k' d, In ((k, (b, s)), (k', d)) (combine fs t) -> typed s d) -> typed (Struct fs) (DTab t).
(* x, of type k, is one of the single values of a configuration *)
Inductive inside : schema -> data -> kind -> one -> Prop :=
| in_leaf k x : inside (Leaf k) (DOne x) (type_of k) x
| in_opt s d k x : d <> DNone -> inside s d k x -> inside (Opt s) d k x
| in_vec s l d k x : In d l -> inside s d k x -> inside (Vec s) (DList l) k x
| in_map s t n d k x : In (n, d) t -> inside s d k x -> inside (Map s) (DTab t) k x
| in_or s d k x : inside s d k x -> inside (TextOr s) d k x
| in_field fs t n b s n' d k x : In ((n, (b, s)), (n', d)) (combine fs t) -> inside s d k x -> inside (Struct fs) (DTab t) k x.

(* what is found at a place of a configuration *)
Fixpoint dsub (d : data) (p : list step) : option data :=
  match p with
  | [] => Some d
  | Key k :: p' => match d with DTab t => match lookup leqb k t with Some x => dsub x p' | None => None end | _ => None end
  | At i :: p' => match d with DList l => match nth_error l i with Some x => dsub x p' | None => None end | _ => None end
  end.
(* what the settings are, by their names; the log of errors has no format except in a file server and in a server of
   the stream section itself; all other settings are texts *)
Definition settings (w : list string) : list (list string * kind) :=
  [(["max_read_buf"; "fall_times"; "rise_times"; "fail_timeout"], KNum 18446744073709551615); (["status"; "weight"], KNum 65535); (["server_id"], KNum 4294967295);
   (["disable_compress"; "browse"; "cors"; "is_ws"; "ts"; "tc"; "two_way_tls"; "disable_stdout"; "disable_control"], KBool);
   (["client_read_timeout"; "client_write_timeout"; "client_timeout"; "client_ka_timeout"; "proxy_connect_timeout"; "proxy_read_timeout"; "proxy_write_timeout"; "proxy_timeout";
     "cache_time"], KDur);
   (["rate_limit"], KRate); (["access_log"], KLog);
   (["error_log"], if (String.eqb (List.last w "") "comm" || (String.eqb (hd "" w) "stream" && Nat.eqb (List.length w) 2))%string%bool then KLog else KErrorLog);
   (["limit_req"], KLimit); (["limit_req_zone"], KZone); (["allow_ip"; "deny_ip"; "client_ip"; "remote_ip"], KIps); (["udp_bind"], KIp);
   (["control"; "addr"; "local_addr"; "map_http_bind"; "map_https_bind"; "map_tcp_bind"; "map_proxy_bind"], KAddr);
   (["center_addr"], KWrap); (["bind"], if String.eqb (hd "" w) "proxy" then KWrap else KText); (["bind_addr"; "bind_ssl"], KAddrs); (["proxy_url"], KUrl); (["headers"], KHeader);
   (["try_paths"], KTries); (["method"], if String.eqb (List.last w "") "rule" then KMethods else KText); (["scheme"], KSchemes); (["match_names"], KRule); (["flag"], KFlag);
   (["default_level"], KLevel)]%string.
Definition setting (w : list string) (k : string) : kind :=
  match find (fun x => existsb (String.eqb k) (fst x)) (settings w) with Some x => snd x | None => KText end.

(* the rule of a location is the only type that may be written as a text *)
Inductive ors : schema -> Prop :=
| ors_leaf k : ors (Leaf k)
| ors_opt s : ors s -> ors (Opt s)
| ors_vec s : ors s -> ors (Vec s)
| ors_map s : ors s -> ors (Map s)
| ors_or : ors FmModel.matcher -> ors (TextOr FmModel.matcher)
| ors_struct fs : (forall k b s, In (k, (b, s)) fs -> ors s) -> ors (Struct fs).

Section Values.
  Context (L : lib).
  (* an address whose text, as the library writes it, is read as that address, and which has none of the characters that
     separate addresses *)
  Definition good_ip (a : ipaddr) : Prop := parse_ip L (show_ip L a) = Some a /\ no_char 47 (show_ip L a) = true /\ word (show_ip L a) = true.
  Definition good_sa (a : saddr) : Prop := parse_sa L (show_sa L a) = Some a /\ clean (show_sa L a) /\ starts_with [58] (show_sa L a) = false.
  (* whole seconds, or whole milliseconds below 2^32 nanoseconds *)
  Definition whole (d : N) : Prop := d / 1000000000 <= u64_max /\ (d mod 1000000000 = 0 \/ d mod 1000000 = 0 /\ d < 2 ^ 32).
  (* values that survive *)
  Definition keeps (k : kind) (x : one) : Prop :=
    match k, x with
    | KText, OText _ | KBool, OBool _ | KLevel, OLevel _ => True
    | KNum max, ONum n => n <= max
    | KDur, ODur d => whole d
    | KRate, ORate r => parse_rate (show_rate L r) = Ok r
    | KUrl, OUrl u => parse_url L (show_url L u) = Some u
    | KLog, OLog l => ~ In 32 (l_name l) /\ ~ In 32 (l_format l) /\ l_format l <> []
    | KErrorLog, OLog l => ~ In 32 (l_name l) /\ l_format l = []
    | KLimit, OLimit r => word (lr_zone r) = true /\ ~ In 61 (lr_zone r) /\ lr_burst r <= u64_max
    | KZone, OZone z => word (lz_key z) = true /\ lz_limit z <= u64_max /\ lz_nums z <= u64_max /\ whole (lz_per z)
    | KIps, OIps l => Forall (fun g => good_ip (g_ip g) /\ match g_ip g with V4 _ => g_len g <= 32 | V6 _ => g_len g <= 128 end) l
    | KIp, OIp a => good_ip a
    | KAddr, OAddr a | KWrap, OAddr a => good_sa a
    | KAddrs, OAddrs l => Forall good_sa l
    | KHeader, OHead h => plain (ch_key h) = true /\ (plain (ch_val h) = true \/ (ch_val h = [] /\ ch_oper h = ODel /\ ch_proxy h = false)) /\
                          ch_oper h <> ODefault /\ (ch_oper h = OReplace -> ch_proxy h = false -> ch_key h <> txt "-")
    | KMethods, OSet l => l = [] \/ exists m, l = [m] /\ word (show_method L m) = true /\ parse_method L (show_method L m) = Some m
    | KSchemes, OSet l => l = [] \/ exists m, l = [m] /\ word (show_scheme L m) = true /\ parse_scheme L (show_scheme L m) = Some m
    | KRule, ORule m => exists p, m = RouteModel.Matcher (Some p) None None None None None
    | KFlag, OFlag b => 0 < b < 8
    | _, _ => False
    end.
  (* values that do not *)
  Definition loses (k : kind) (x : one) : Prop :=
    match k, x with
    (* 5.001s, 1.5ms *)
    | KDur, ODur d => d / 1000000000 <= u64_max /\ ~ whole d
    (* two methods or schemes in a rule *)
    | KMethods, OSet l => (2 <= length l)%nat /\ forall m, word (show_method L m) = true
    | KSchemes, OSet l => (2 <= length l)%nat /\ forall m, word (show_scheme L m) = true
    (* a default header rule; a rule for the answer that sets or adds a value of two words *)
    | KHeader, OHead h => plain (ch_key h) = true /\
        (plain (ch_val h) = true /\ ch_oper h = ODefault \/
         ch_proxy h = false /\ (ch_oper h = OAdd \/ ch_oper h = OReplace) /\ exists a b, ch_val h = a ++ 32 :: b /\ plain a = true /\ plain b = true)
    (* a proxy of no kind *)
    | KFlag, OFlag b => b = 0
    (* an access log, or the error log of a file server or of a stream server, without a format *)
    | KLog, OLog l => ~ In 32 (l_name l) /\ l_format l = []
    (* any try_paths of words, with a status whose text is made of words that do not begin with = *)
    | KTries, OTries y => Forall (fun w => plain w = true /\ is_path w) (y_list y) /\
                          exists sw, sw <> [] /\ Forall (fun w => plain w = true /\ is_path w) sw /\ show_status L (y_status y) = RwModel.joined sw
    | _, _ => False
    end.
End Values.
