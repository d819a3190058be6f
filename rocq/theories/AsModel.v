(* The life of a UDP association: src/proxy/socks5.rs:386-502, with the relaying of
   SocksModel (udp_parse, encode_addr). *)
From Coq Require Import String.
From Verif Require Import Base Text AddrModel SocksModel.
Open Scope N_scope.

(* socks5.rs:483-502: the three futures of try_join!, true while they run: the reader of the
   control connection, the way to the targets, the way back.  as_sig: the reader has sent
   the signal; as_over: udp_transfer has returned and the sockets are closed. *)
Record assoc := Assoc { as_peer : option saddr; as_tcp : bool; as_req : bool; as_res : bool; as_sig : bool; as_over : bool }.
(* socks5.rs:487-494 *)
Definition assoc0 : assoc := Assoc None true true true false false.

(* AsTcp n: a read of the control connection gives n bytes, none at its end; AsTcpErr: it
   fails; AsIn, AsOut: a datagram reaches the socket on the client's or on the targets'
   side; AsReqSig, AsResSig: the future takes the signal out of its channel (select! takes
   any branch that is ready, so datagrams may still come first) *)
Inductive asev := AsTcp (n : N) | AsTcpErr | AsIn (from : saddr) (d : bytes) | AsOut (from : saddr) (d : bytes) | AsReqSig | AsResSig.
(* what is sent *)
Inductive asout := AsTarget (to : saddr) (d : bytes) | AsClient (to : saddr) (d : bytes) | AsEnd (ok : bool).

(* socks5.rs:358-365 udp_execute_assoc: what is written to the client and where the socket for
   its datagrams is bound; port: the one the system chose *)
Definition assoc_start (ip : ipaddr) (port : N) : bytes * saddr := (reply true (SAddr ip port), SAddr (V4 0) port).

Section Assoc.
  (* resolve: as in SocksModel; sends a d: send_to on an IPv4 socket succeeds; replies p d:
     send on the connected socket succeeds *)
  Context (resolve : bytes -> N -> option (list saddr)) (sends replies : saddr -> bytes -> bool).

  (* socks5.rs:494-501: any error ends all three; all three done end it too *)
  Definition failed (s : assoc) : assoc * list asout := (Assoc (as_peer s) false false false (as_sig s) true, [AsEnd false]).
  (* try_join!, socks5.rs:494 *)
  Definition settle (s : assoc) (o : list asout) : assoc * list asout :=
    if as_tcp s || as_req s || as_res s then (s, o)
    else (Assoc (as_peer s) false false false (as_sig s) true, o ++ [AsEnd true]).
  (* a connected UDP socket only receives from its peer *)
  Definition from_peer (s : assoc) (from : saddr) : bool :=
    match as_peer s with Some p => ip_eqb (sa_ip p) (sa_ip from) && (sa_port p =? sa_port from) | None => true end.

  (* socks5.rs:386-409, 412-444, 447-481 *)
  Definition asstep (s : assoc) (e : asev) : assoc * list asout :=
    if as_over s then (s, []) else
    match e with
    | AsTcp n =>
      if as_tcp s then if n =? 0 then settle (Assoc (as_peer s) false (as_req s) (as_res s) true false) [] else (s, [])
      else (s, [])
    | AsTcpErr => if as_tcp s then failed s else (s, [])
    | AsIn from d =>
      if as_req s && from_peer s from then
        let s := Assoc (Some from) (as_tcp s) true (as_res s) (as_sig s) false in
        match udp_parse resolve d with
        | Ok (flag, a, data) =>
          if negb (flag =? 0) then settle (Assoc (Some from) (as_tcp s) false (as_res s) (as_sig s) false) []
          else if sends a data then (s, [AsTarget a data]) else failed s
        | _ => failed s
        end
      else (s, [])
    | AsOut from d =>
      if as_res s then
        match as_peer s with
        | Some p => let x := [0; 0; 0] ++ encode_addr from ++ d in if replies p x then (s, [AsClient p x]) else failed s
        | None => failed s
        end
      else (s, [])
    | AsReqSig => if as_sig s && as_req s then settle (Assoc (as_peer s) (as_tcp s) false (as_res s) true false) [] else (s, [])
    | AsResSig => if as_sig s && as_res s then settle (Assoc (as_peer s) (as_tcp s) (as_req s) false true false) [] else (s, [])
    end.
  (* model only: the steps of a whole event list *)
  Fixpoint asrun (s : assoc) (es : list asev) : assoc * list asout :=
    match es with
    | [] => (s, [])
    | e :: es' => let (s1, o1) := asstep s e in let (s2, o2) := asrun s1 es' in (s2, o1 ++ o2)
    end.
End Assoc.
