(* From the words of a proxy command to what is done with a connection of a client: the
   section of PlModel, src/wmcore.rs:121-144 deal_client_stream and src/proxy/server.rs:13-91
   over HttpProxyModel and SocksModel. *)
From Coq Require Import String.
From Verif Require Import Base Text TextOps AddrModel ConfModel CoreModel SocksModel HttpProxyModel ArgModel OpModel BuModel PlModel.
Open Scope N_scope.

(* what is done with a connection: it is passed on through the tunnel as it is, or the
   requests on it are answered by the HTTP proxy, or it is served by the SOCKS5 proxy, or
   it is closed *)
Inductive given_to := GTunnel (segs : list bytes) | GHttp (answers : list (list hev * res unit hans)) | GSocks (did : list sev * sout) | GNobody.
Section Serve.
  (* webparse and wenmeng: the requests read from a connection, and whether each target can
     be reached and what it answers; looking up names; connecting *)
  Context (requests : inp -> list (hreq * bool * option bool)) (resolve : bytes -> N -> option (list saddr)) (connect : saddr -> bool).
  (* src/proxy/server.rs:34-91 with the settings of src/wmcore.rs:130-136; room: the size of
     the first read *)
  Definition deal_proxy (s : pbuilt) (room : nat) (segs : list bytes) : given_to :=
    match detect (bu_flag s) room segs with
    | ToHttp i => GHttp (snd (h_run (HCfg (bu_user s) (bu_pass s)) (HSt None None) (requests i)))
    | ToSocks i => GSocks (process resolve connect (SCfg (bu_user s) (bu_pass s) (bu_udp s)) i)
    | Nobody | Refused => GNobody
    end.
  (* src/wmcore.rs:121-144; segs: the bytes of the client as they arrive *)
  Definition deal_client (o : @copt (list (text * list val))) (b : binding) (room : nat) (segs : list bytes) : given_to :=
    if b_tunnel b then GTunnel segs
    else match o_proxy o with Some x => deal_proxy (section_of x) room segs | None => GNobody end.
End Serve.
