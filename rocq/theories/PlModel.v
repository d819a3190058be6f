(* From the words of a command line to the ports that are opened: src/arg.rs:335-578
   (OpModel, ArgModel), the ProxyConfig of src/option.rs:203-266, and
   src/wmcore.rs:209-249 ready_serve over option.rs:568-677 (CoreModel) and
   reverse/http.rs, reverse/stream.rs bind (BindModel).  The control port is not among
   them (C118, CtlModel). *)
From Coq Require Import String.
From Verif Require Import Base Text TextOps AddrModel ConfModel RouteModel ProtModel CoreModel BindModel ArgModel OpModel BuModel.
Open Scope N_scope.

(* Option<WrapAddr> *)
Definition o_addr (l : list val) : option saddr := match l with [VAddr x] => Some x | _ => None end.
(* Option<SocketAddr> *)
Definition o_sock (l : list val) : option saddr := match l with [VSock x] => Some x | _ => None end.
(* Option<IpAddr> *)
Definition o_ip (l : list val) : option ipaddr := match l with [VIp x] => Some x | _ => None end.
(* u32 *)
Definition g_num (l : list val) : N := match l with [VNum n] => n | _ => 0 end.
(* Flag *)
Definition g_flag (l : list val) : N := match l with [VFlag b] => b | _ => 0 end.
(* option.rs:203-266: the fields of the proxy section; there is no value that is read as a
   mapping (mapping/config.rs:68-74) *)
Definition section_of (x : list (text * list val)) : pbuilt :=
  PBuilt (g_num (got x "server-id")) (o_addr (got x "bind")) (o_addr (got x "center-addr")) (g_flag (got x "flag")) (o_str (got x "server"))
         (o_str (got x "user")) (o_str (got x "pass")) (o_ip (got x "udp-bind"))
         (o_sock (got x "map-http-bind")) (o_sock (got x "map-https-bind")) (o_sock (got x "map-tcp-bind")) (o_sock (got x "map-proxy-bind"))
         (o_str (got x "map-cert")) (o_str (got x "map-key")) (g_bool (got x "ts")) (g_bool (got x "tc")) (g_bool (got x "two-way-tls"))
         (o_str (got x "domain")) (o_str (got x "cert")) (o_str (got x "key")) [].

Section Line.
  Context (parse_ip : text -> option ipaddr) (parse_sa : text -> option saddr) (local4 local6 : option ipaddr).
  Notation fields := (list (text * list val)).
  Context (read_file : text -> option text) (yaml toml : text -> option (@copt fields))
          (load_http : asection -> option asection) (load_stream : asection -> asection) (show_sa : saddr -> text).
  (* arg.rs:335-578: the configuration the words come to, if the process goes on to serve it *)
  Definition asked_start (argv words : list text) : option (@copt fields) :=
    match command_line parse_ip parse_sa local4 local6 words with
    | Some (Ok (c, sh)) =>
      match parse_env read_file yaml toml load_http load_stream show_sa argv c sh with PStart o => Some o | _ => None end
    | _ => None
    end.

  Context (read : text -> option (list pem)) (own_certs : list N) (own_key : N)
          (pair_ok : list N -> N -> bool) (root_ok : N -> bool) (can_bind : saddr -> bool) (reach : text -> bool -> bool)
          (cert_ok : text -> text -> bool) (can_open : bool -> saddr -> bool).
  (* wmcore.rs:210-232 *)
  Definition proxy_ports (o : @copt fields) : started :=
    match o_proxy o with
    | Some x => proxy_start read own_certs own_key pair_ok root_ok can_bind reach (to_pconf (section_of x))
    | None => BOk (Binding false false false false [])
    end.
  (* reverse/http.rs:197-215; cert_ok: the two files can be loaded *)
  Definition web_of (s : aserver) : bserver :=
    BindModel.BServer (RouteModel.Server (as_up s) (as_bind s) (as_ssl s) [])
            (match as_cert s, as_key s with Some c, Some k => Some (cert_ok c k) | _, _ => None end).
  (* wmcore.rs:242-244 *)
  Definition web_ports (o : @copt fields) : res unit (list (saddr * bool)) :=
    match o_http o with Some h => http_bind can_bind (map web_of (ac_servers h)) | None => Ok [] end.
  (* wmcore.rs:246-248 *)
  Definition stream_ports (o : @copt fields) : res unit (list (saddr * bool * nat)) :=
    match o_stream o with Some h => stream_bind can_open (map (fun s => SServer (as_bind s) (as_mode s)) (ac_servers h)) | None => Ok [] end.
End Line.
