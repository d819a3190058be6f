(* The form of a configuration file: which keys it may have, which it must have, and
   what becomes of the others.  The structs that are read with serde's derived
   Deserialize (src/option.rs, src/reverse, src/plugins/file_server.rs,
   src/mapping/config.rs), as tables.

   A file is the value its format (yaml or toml) describes; the keys of one table are
   different (both formats refuse a file in which they are not).  Which single values a
   field takes depends on its type and is a parameter (accepts).  A struct written as a
   list is not modelled. *)
From Coq Require Import String.
From Verif Require Import Base Text TextOps.
Open Scope N_scope.

(* a value in a file: nothing (the null of yaml), a single value by its text, a list, a table *)
Inductive val := VNull | VOne (s : text) | VList (l : list val) | VTab (t : list (text * val)).
(* the type of a single value, by its name in the source *)
Definition leaf := text.
(* serde's view of a type: Option, Vec, HashMap<String, _>, string_or_struct
   (reverse/mod.rs:48-80), a derived struct with its fields, each with its name and
   whether it must be there (no #[serde(default)], not an Option) *)
Inductive schema :=
| Leaf (k : leaf)
| Opt (s : schema)
| Vec (s : schema)
| Map (s : schema)
| TextOr (s : schema)
| Struct (fs : list (text * (bool * schema))).

(* model only: all results, or none *)
Fixpoint all {A} (l : list (option A)) : option (list A) :=
  match l with
  | [] => Some []
  | Some x :: l' => match all l' with Some r => Some (x :: r) | None => None end
  | None :: _ => None
  end.

Section Read.
  Context (accepts : leaf -> val -> bool).

  (* serde's derived Deserialize (no deny_unknown_fields anywhere): the fields are looked
     up by name, other keys are skipped.  The result is what was taken from the file. *)
  Fixpoint read (s : schema) (v : val) : option val :=
    match s with
    | Leaf k => if accepts k v then Some v else None
    | Opt s' => match v with VNull => Some VNull | _ => read s' v end
    | Vec s' => match v with VList l => option_map VList (all (map (read s') l)) | _ => None end
    | Map s' => match v with
                | VTab t => option_map VTab (all (map (fun kv => option_map (pair (fst kv)) (read s' (snd kv))) t))
                | _ => None
                end
    | TextOr s' => match v with VTab _ => read s' v | _ => if accepts (txt "str") v then Some v else None end
    | Struct fs =>
      match v with
      | VTab t =>
        option_map VTab
          ((fix go (fs : list (text * (bool * schema))) : option (list (text * val)) :=
              match fs with
              | [] => Some []
              | (k, (must, s')) :: fs' =>
                match lookup leqb k t with
                | None => if must then None else go fs'
                | Some x => match read s' x with
                            | Some y => match go fs' with Some r => Some ((k, y) :: r) | None => None end
                            | None => None
                            end
                end
              end) fs)
      | _ => None
      end
    end.
End Read.

(* a field that must be there *)
Definition must (k : string) (s : schema) : text * (bool * schema) := (txt k, (true, s)).
(* a field that may be left out *)
Definition may (k : string) (s : schema) : text * (bool * schema) := (txt k, (false, s)).
(* an optional field of a type *)
Definition opt (k ty : string) : text * (bool * schema) := may k (Opt (Leaf (txt ty))).
(* a field of a type with a default *)
Definition def (k ty : string) : text * (bool * schema) := may k (Leaf (txt ty)).

(* reverse/common.rs:24-72 (Option fields under serde_as get a default).  error_log is a
   ConfigLog everywhere; e says whether pre_deal (common.rs:158-163) is applied to it when
   the configuration is loaded, which is the case for ErrorLog (NtModel reads the two
   differently) *)
Definition common_with (e : string) : list (text * (bool * schema)) :=
  [opt "max_read_buf" "usize"; opt "rate_limit" "ConfigRate";
   opt "client_read_timeout" "ConfigDuration"; opt "client_write_timeout" "ConfigDuration"; opt "client_timeout" "ConfigDuration"; opt "client_ka_timeout" "ConfigDuration";
   opt "proxy_connect_timeout" "ConfigDuration"; opt "proxy_read_timeout" "ConfigDuration"; opt "proxy_write_timeout" "ConfigDuration"; opt "proxy_timeout" "ConfigDuration";
   may "log_format" (Map (Leaf (txt "String"))); may "log_names" (Map (Leaf (txt "String")));
   opt "access_log" "ConfigLog"; opt "error_log" e; opt "limit_req" "LimitReq"; opt "allow_ip" "IpSets"; opt "deny_ip" "IpSets"; opt "domain" "String"; opt "proxy_url" "Url";
   may "match_names" (Map (Leaf (txt "Matcher")))].
(* reverse/common.rs:24-72 *)
Definition common_fields : list (text * (bool * schema)) := common_with "ErrorLog".
(* plugins/file_server.rs:117-151 *)
Definition file_server : schema := Struct
  [opt "root" "String"; def "prefix" "String"; def "default_mimetype" "String"; may "ext_mimetype" (Map (Leaf (txt "String")));
   opt "cache_time" "ConfigDuration"; opt "robots" "String"; opt "path404" "String";
   may "hide" (Vec (Leaf (txt "String"))); may "index" (Vec (Leaf (txt "String"))); def "status" "u16"; may "precompressed" (Vec (Leaf (txt "String")));
   def "disable_compress" "bool"; def "browse" "bool"; def "cors" "bool"; may "comm" (Struct (common_with "ConfigLog"))].
(* reverse/matcher.rs:34-47 *)
Definition matcher : schema := Struct
  [opt "path" "String"; opt "client_ip" "IpSets"; opt "remote_ip" "IpSets"; opt "host" "String"; opt "method" "MatchMethod"; opt "scheme" "MatchScheme"].
(* reverse/upstream.rs:36-66; status is skipped by serde *)
Definition upstream : schema := Struct
  [must "name" (Leaf (txt "String")); def "bind" "String";
   may "server" (Vec (Struct [must "addr" (Leaf (txt "SocketAddr")); def "weight" "u16"; def "fail_timeout" "DurationSeconds"; def "fall_times" "usize"; def "rise_times" "usize"]))].
(* reverse/location.rs:26-57 *)
Definition location : schema := Struct
  ([must "rule" (TextOr matcher); may "file_server" (Opt file_server); opt "static_response" "StaticResponse"; may "headers" (Vec (Leaf (txt "ConfigHeader")));
    opt "method" "String"; opt "up_name" "String"; def "is_ws" "bool"; opt "root" "String"; may "upstream" (Vec upstream); opt "try_paths" "TryPathsConfig"] ++ common_fields).
(* reverse/server.rs:31-61 *)
Definition server_with (e : string) : schema := Struct
  ([must "bind_addr" (Leaf (txt "WrapVecAddr")); must "bind_ssl" (Leaf (txt "WrapVecAddr")); def "up_name" "String"; opt "root" "String"; opt "cert" "String"; opt "key" "String";
    def "bind_mode" "String"; may "headers" (Vec (Leaf (txt "ConfigHeader"))); may "location" (Vec location); may "upstream" (Vec upstream)] ++ common_with e).
(* reverse/server.rs:31-61 *)
Definition server : schema := server_with "ErrorLog".
(* reverse/http.rs:89-104 *)
Definition http : schema := Struct
  ([may "server" (Vec server); may "upstream" (Vec upstream); may "limit_req_zone" (Map (Leaf (txt "LimitReqZone")))] ++ common_fields).
(* reverse/stream.rs:40-46 *)
Definition stream : schema := Struct [may "server" (Vec (server_with "ConfigLog")); may "upstream" (Vec upstream)].
(* mapping/config.rs:24-37 *)
Definition mapping : schema := Struct
  [must "name" (Leaf (txt "String")); must "mode" (Leaf (txt "String")); opt "local_addr" "SocketAddr"; def "domain" "String"; may "headers" (Vec (Leaf (txt "ConfigHeader")))].
(* src/option.rs:200-266 *)
Definition proxy : schema := Struct
  [def "server_id" "u32"; opt "bind" "WrapAddr"; opt "center_addr" "WrapAddr"; def "flag" "Flag"; opt "server" "String"; opt "username" "String"; opt "password" "String";
   opt "udp_bind" "IpAddr"; opt "map_http_bind" "SocketAddr"; opt "map_https_bind" "SocketAddr"; opt "map_tcp_bind" "SocketAddr"; opt "map_proxy_bind" "SocketAddr";
   opt "map_cert" "String"; opt "map_key" "String"; def "ts" "bool"; def "tc" "bool"; def "two_way_tls" "bool"; opt "domain" "String"; opt "cert" "String"; opt "key" "String";
   may "mappings" (Vec mapping)].
(* src/option.rs:275-297 *)
Definition config : schema := Struct
  [may "proxy" (Opt proxy); may "http" (Opt http); may "stream" (Opt stream); def "control" "SocketAddr"; def "disable_stdout" "bool"; def "disable_control" "bool";
   def "pidfile" "String"; opt "default_level" "LevelFilter"].

(* config/reverse.toml:1-154, a file that comes with the program *)
Definition sample_reverse : val :=
  VTab [(txt "control", VOne (txt "127.0.0.1:8837"));
    (txt "proxy", VTab [(txt "bind_addr", VOne (txt "0.0.0.0:8090"));
    (txt "username", VOne (txt "wmproxy"));
    (txt "password", VOne (txt "wmproxy"))]);
    (txt "http", VTab [(txt "aa", VOne (txt "b"));
    (txt "max_read_buf", VOne (txt "1024000"));
    (txt "access_log", VOne (txt "access main trace"));
    (txt "error_log", VOne (txt "error trace"));
    (txt "log_format", VTab [(txt "main", VOne (txt "{d(%Y-%m-%d %H:%M:%S)} {client_ip} {l} {url} path:{path} query:{query} host:{host} status: {status} {up_status} referer: {referer} user_agent: {user_agent} cookie: {cookie}"))]);
    (txt "log_names", VTab [(txt "access", VOne (txt "logs/access.log trace"));
    (txt "error", VOne (txt "logs/error.log"));
    (txt "default", VOne (txt "logs/default.log"))]);
    (txt "limit_req_zone", VTab [(txt "limit", VOne (txt "{client_ip} limit=10m rate=1000r/s"))]);
    (txt "upstream", VList [VTab [(txt "name", VOne (txt "server"));
    (txt "server", VList [VTab [(txt "addr", VOne (txt "127.0.0.1:8080"));
    (txt "fail_timeout", VOne (txt "30"))]])]; VTab [(txt "name", VOne (txt "ws"));
    (txt "server", VList [VTab [(txt "addr", VOne (txt "127.0.0.1:8081"));
    (txt "fail_timeout", VOne (txt "30"))]])]]);
    (txt "server", VList [VTab [(txt "bind_addr", VOne (txt "0.0.0.0:82"));
    (txt "up_name", VOne (txt "soft.wm-proxy.com"));
    (txt "proxy_connect_timeout", VOne (txt "10s"));
    (txt "proxy_read_timeout", VOne (txt "10s"));
    (txt "proxy_write_timeout", VOne (txt "10s"));
    (txt "root", VOne []);
    (txt "headers", VList [VOne (txt "proxy x-forward-for {client_ip}"); VOne (txt "+ last-modified 'from proxy'")]);
    (txt "limit_req", VOne (txt "zone=limit brust=1"));
    (txt "location", VList [VTab [(txt "rate_limit", VOne (txt "4m/s"));
    (txt "rule", VOne (txt "/root"));
    (txt "file_server", VTab [(txt "browse", VOne (txt "true"))]);
    (txt "proxy_pass", VOne []);
    (txt "try_paths", VOne (txt "{path}/ '/ro(\w+)/(.*) {path} /ro$1/Cargo.toml' /root/README.md"))]; VTab [(txt "rule", VOne (txt "@ws"));
    (txt "is_ws", VOne (txt "true"));
    (txt "proxy_url", VOne (txt "http://ws"));
    (txt "headers", VList [VOne (txt "+ aaa bbb")])]; VTab [(txt "rule", VOne (txt "/static"));
    (txt "static_response", VOne (txt "I'm Ok {client_ip}"))]])]])]);
    (txt "stream", VTab [(txt "upstream", VList [VTab [(txt "name", VOne (txt "server"));
    (txt "server", VList [VTab [(txt "addr", VOne (txt "127.0.0.1:8080"));
    (txt "fail_timeout", VOne (txt "30"))]])]; VTab [(txt "name", VOne (txt "ws"));
    (txt "server", VList [VTab [(txt "addr", VOne (txt "127.0.0.1:8081"));
    (txt "fail_timeout", VOne (txt "30"))]])]; VTab [(txt "name", VOne (txt "udp"));
    (txt "bind", VOne (txt "udp"));
    (txt "server", VList [VTab [(txt "addr", VOne (txt "127.0.0.1:8089"))]])]]);
    (txt "server", VList [VTab [(txt "bind_addr", VOne (txt "0.0.0.0:83"));
    (txt "up_name", VOne (txt "server"))]; VTab [(txt "bind_addr", VOne (txt "0.0.0.0:85"));
    (txt "proxy_url", VOne (txt "ws://127.0.0.1:8081/"));
    (txt "bind_mode", VOne (txt "tcp2ws"))]; VTab [(txt "bind_addr", VOne (txt "0.0.0.0:84"));
    (txt "bind_mode", VOne (txt "udp"));
    (txt "up_name", VOne (txt "udp"));
    (txt "timeout", VOne (txt "500s"))]; VTab [(txt "bind_addr", VOne (txt "0.0.0.0:86"));
    (txt "up_name", VOne (txt "ws1"));
    (txt "proxy_url", VOne (txt "tcp://127.0.0.1:8082"));
    (txt "bind_mode", VOne (txt "ws2tcp"))]])])].
(* config/client.toml:1-35, a file that comes with the program *)
Definition sample_client : val :=
  VTab [(txt "control", VOne (txt "127.0.0.1:8838"));
    (txt "proxy", VTab [(txt "server", VOne (txt "127.0.0.1:8091"));
    (txt "bind_addr", VOne (txt "0.0.0.0:8090"));
    (txt "flag", VOne (txt "http https socks5"));
    (txt "ts", VOne (txt "true"));
    (txt "two_way_tls", VOne (txt "true"));
    (txt "username", VOne (txt "wmproxy"));
    (txt "password", VOne (txt "wmproxy"));
    (txt "mappings", VList [VTab [(txt "name", VOne (txt "web"));
    (txt "mode", VOne (txt "http"));
    (txt "local_addr", VOne (txt "127.0.0.1:8080"));
    (txt "domain", VOne (txt "localhost"));
    (txt "headers", VList [VOne (txt "proxy x-forward-for {client_ip}"); VOne (txt "proxy + from $url"); VOne (txt "+ last-modified 'from proxy'"); VOne (txt "- etag")])]; VTab [(txt "name", VOne (txt "tcp"));
    (txt "mode", VOne (txt "tcp"));
    (txt "local_addr", VOne (txt "127.0.0.1:8080"));
    (txt "domain", VOne [])]])])].
