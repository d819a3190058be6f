(* Which option names which port. *)
From Coq Require Import String.
From Verif Require Import Base Text TextOps AddrModel ConfModel CoreModel ArgModel OpModel OpSpec BuModel.
Open Scope N_scope.

(* the ports of the proxy command, by the option that names their address *)
Definition port_options : list (lkind * string * ty) :=
  [(LClient, "bind", TAddr); (LCenter, "center-addr", TAddr); (LHttp, "map-http-bind", TSock); (LHttps, "map-https-bind", TSock);
   (LTcp, "map-tcp-bind", TSock); (LProxy, "map-proxy-bind", TSock)]%string.
(* an option that holds a text or is not there *)
Definition said (n : string) (os : list occ) (v : option text) : Prop :=
  given n os = match v with Some w => [Some w] | None => [] end.
Section Meaning.
  Context (reads : ty -> text -> val -> Prop).
  (* the address that option n gives, as a value of type t *)
  Definition names (n : string) (t : ty) (os : list occ) (a : saddr) : Prop :=
    exists w, given n os = [Some w] /\ reads t w (match t with TSock => VSock a | _ => VAddr a end).
  (* every setting of the section is what its option says *)
  Definition section_by (os : list occ) (p : pbuilt) : Prop :=
    means reads (Or TNum (VNum 0)) (given "server-id" os) [VNum (bu_sid p)] /\
    (forall a, bu_bind p = Some a <-> names "bind" TAddr os a) /\ (forall a, bu_center p = Some a <-> names "center-addr" TAddr os a) /\
    means reads (Or TFlag (VFlag 7)) (given "flag" os) [VFlag (bu_flag p)] /\
    said "server" os (bu_server p) /\ said "user" os (bu_user p) /\ said "pass" os (bu_pass p) /\
    means reads (May TIp) (given "udp-bind" os) (may VIp (bu_udp p)) /\
    (forall a, bu_http p = Some a <-> names "map-http-bind" TSock os a) /\ (forall a, bu_https p = Some a <-> names "map-https-bind" TSock os a) /\
    (forall a, bu_tcp p = Some a <-> names "map-tcp-bind" TSock os a) /\ (forall a, bu_proxy p = Some a <-> names "map-proxy-bind" TSock os a) /\
    said "map-cert" os (bu_map_cert p) /\ said "map-key" os (bu_map_key p) /\
    (bu_ts p = true <-> given "ts" os <> []) /\ (bu_tc p = true <-> given "tc" os <> []) /\ (bu_two_way p = true <-> given "two-way-tls" os <> []) /\
    said "domain" os (bu_domain p) /\ said "cert" os (bu_cert p) /\ said "key" os (bu_key p) /\ bu_maps p = [].
End Meaning.
(* loading a section leaves the addresses, files and modes of its servers *)
Definition addresses (s : asection) : list (list saddr * list saddr * option text * option text * text * text) :=
  map (fun v => (as_bind v, as_ssl v, as_cert v, as_key v, as_up v, as_mode v)) (ac_servers s).
Definition keeps_addresses (lh : asection -> option asection) (ls : asection -> asection) : Prop :=
  (forall s s', lh s = Some s' -> addresses s' = addresses s) /\ (forall s, addresses (ls s) = addresses s).
