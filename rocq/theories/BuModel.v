(* The builder of the proxy section, src/option.rs:37-198, and ConfigOption::new_by_proxy. *)
From Coq Require Import String.
From Verif Require Import Base Text TextOps AddrModel ConfModel ProtModel CoreModel.
Open Scope N_scope.

(* src/option.rs:203-266 ProxyConfig, every field *)
Record pbuilt := PBuilt {
  bu_sid : N; bu_bind : option saddr; bu_center : option saddr; bu_flag : N; bu_server : option text;
  bu_user : option text; bu_pass : option text; bu_udp : option ipaddr;
  bu_http : option saddr; bu_https : option saddr; bu_tcp : option saddr; bu_proxy : option saddr;
  bu_map_cert : option text; bu_map_key : option text; bu_ts : bool; bu_tc : bool; bu_two_way : bool;
  bu_domain : option text; bu_cert : option text; bu_key : option text; bu_maps : list mapping }.
(* src/option.rs:196-198 *)
Definition default_bind_addr : saddr := SAddr (V4 0x7f000001) 8090.
(* src/option.rs:314-343 ProxyConfig::default *)
Definition bu_default : pbuilt :=
  PBuilt 0 (Some default_bind_addr) None (N.lor (N.lor f_http f_https) f_socks5) None None None None
         None None None None None None false false false None None None [].

(* the methods of Builder that set something, src/option.rs:49-182 *)
Inductive bcall :=
| BFlag (f : N) | BAddFlag (f : N) | BBind (a : saddr) | BCenter (a : saddr) | BServer (s : option text)
| BTs (b : bool) | BTc (b : bool) | BCert (s : option text) | BKey (s : option text) | BDomain (s : option text)
| BUser (s : option text) | BPass (s : option text) | BUdp (i : option ipaddr)
| BHttp (a : option saddr) | BHttps (a : option saddr) | BTcp (a : option saddr) | BProxy (a : option saddr)
| BMapping (m : mapping).

(* src/option.rs:49-182, one method; none fails, so inner is always Ok and and_then (184-191)
   is plain composition *)
Definition bu_step (p : pbuilt) (c : bcall) : pbuilt :=
  let '(PBuilt sid bind center flag server user pass udp http https tcp proxy mc mk ts tc tw dom cert key maps) := p in
  match c with
  | BFlag f => PBuilt sid bind center f server user pass udp http https tcp proxy mc mk ts tc tw dom cert key maps
  | BAddFlag f => PBuilt sid bind center (N.lor flag f) server user pass udp http https tcp proxy mc mk ts tc tw dom cert key maps
  | BBind a => PBuilt sid (Some a) center flag server user pass udp http https tcp proxy mc mk ts tc tw dom cert key maps
  | BCenter a => PBuilt sid bind (Some a) flag server user pass udp http https tcp proxy mc mk ts tc tw dom cert key maps
  | BServer s => PBuilt sid bind center flag s user pass udp http https tcp proxy mc mk ts tc tw dom cert key maps
  | BTs b => PBuilt sid bind center flag server user pass udp http https tcp proxy mc mk b tc tw dom cert key maps
  | BTc b => PBuilt sid bind center flag server user pass udp http https tcp proxy mc mk ts b tw dom cert key maps
  | BCert s => PBuilt sid bind center flag server user pass udp http https tcp proxy mc mk ts tc tw dom s key maps
  | BKey s => PBuilt sid bind center flag server user pass udp http https tcp proxy mc mk ts tc tw dom cert s maps
  | BDomain s => PBuilt sid bind center flag server user pass udp http https tcp proxy mc mk ts tc tw s cert key maps
  | BUser s => PBuilt sid bind center flag server s pass udp http https tcp proxy mc mk ts tc tw dom cert key maps
  | BPass s => PBuilt sid bind center flag server user s udp http https tcp proxy mc mk ts tc tw dom cert key maps
  | BUdp i => PBuilt sid bind center flag server user pass i http https tcp proxy mc mk ts tc tw dom cert key maps
  | BHttp a => PBuilt sid bind center flag server user pass udp a https tcp proxy mc mk ts tc tw dom cert key maps
  | BHttps a => PBuilt sid bind center flag server user pass udp http a tcp proxy mc mk ts tc tw dom cert key maps
  | BTcp a => PBuilt sid bind center flag server user pass udp http https a proxy mc mk ts tc tw dom cert key maps
  | BProxy a => PBuilt sid bind center flag server user pass udp http https tcp a mc mk ts tc tw dom cert key maps
  | BMapping m => PBuilt sid bind center flag server user pass udp http https tcp proxy mc mk ts tc tw dom cert key (maps ++ [m])
  end.
(* src/option.rs:43-47 new, the calls, 192-194 into_value *)
Definition build (cs : list bcall) : pbuilt := fold_left bu_step cs bu_default.

(* the fields that starting looks at (CoreModel.pconf) *)
Definition to_pconf (p : pbuilt) : pconf :=
  PConf (bu_tc p) (bu_ts p) (bu_two_way p) (bu_cert p) (bu_key p) (bu_map_cert p) (bu_map_key p) (bu_server p)
        (bu_bind p) (bu_center p) (bu_http p) (bu_https p) (bu_tcp p) (bu_proxy p).

(* src/option.rs:276-297 ConfigOption; the http and stream sections only as given or not *)
Record bopt := BOpt { bo_proxy : option pbuilt; bo_http : bool; bo_stream : bool; bo_control : saddr; bo_no_stdout : bool;
                      bo_no_control : bool; bo_pidfile : text; bo_level : option N }.
(* src/option.rs:299-312, 268-274 *)
Definition bo_default : bopt := BOpt None false false (SAddr (V4 0x7f000001) 8837) false false (txt "wmproxy.pid") None.
(* src/option.rs:681-686 *)
Definition new_by_proxy (p : pbuilt) : bopt :=
  let d := bo_default in
  BOpt (Some p) (bo_http d) (bo_stream d) (bo_control d) (bo_no_stdout d) true (bo_pidfile d) (bo_level d).
(* src/option.rs:688-693 *)
Definition is_empty_listen (o : bopt) : bool :=
  if bo_http o || bo_stream o || match bo_proxy o with Some _ => true | None => false end then false else true.
