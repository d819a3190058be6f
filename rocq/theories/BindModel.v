(* Listening: src/reverse/http.rs bind, src/reverse/stream.rs bind and process, and
   which server a connection is given to (src/wmcore.rs:297-337). *)
From Coq Require Import String.
From Verif Require Import Base Text TextOps AddrModel ConfModel RouteModel.
Open Scope N_scope.

(* == of SocketAddr (bind_addr_set, src/reverse/http.rs:216-241) *)
Definition sa_eqb (a b : saddr) : bool := ip_eqb (sa_ip a) (sa_ip b) && (sa_port a =? sa_port b).
(* HashSet::contains of bind_addr_set, src/reverse/http.rs:217, 229 *)
Definition mem_sa (a : saddr) (l : list saddr) : bool := existsb (sa_eqb a) l.

(* A server block with what became of its certificate: None when cert and key are
   not both configured, Some false when loading or adding them fails. *)
Record bserver := BServer { b_srv : server; b_cert : option bool }.
(* src/reverse/http.rs:197-215: both files given and accepted *)
Definition is_ssl (s : bserver) : bool := match b_cert s with Some true => true | _ => false end.

Section Bind.
  (* Helper::bind on an address: can it be bound *)
  Context (can_bind : saddr -> bool).

  (* src/reverse/http.rs:216-226 and 228-241: one list of addresses of one server.
     done is bind_addr_set, acc the listeners with http_tlss *)
  Fixpoint bind_addrs (ssl : bool) (tls : bool) (done : list saddr) (acc : list (saddr * bool)) (l : list saddr)
    : res unit (list saddr * list (saddr * bool)) :=
    match l with
    | [] => Ok (done, acc)
    | a :: l' =>
      if mem_sa a done then bind_addrs ssl tls done acc l'
      else if tls && negb ssl then Err tt
      else if can_bind a then bind_addrs ssl tls (a :: done) (acc ++ [(a, tls)]) l'
      else Err tt
    end.
  (* src/reverse/http.rs:185-242: the servers in order *)
  Fixpoint bind_servers (done : list saddr) (acc : list (saddr * bool)) (ss : list bserver) : res unit (list (saddr * bool)) :=
    match ss with
    | [] => Ok acc
    | s :: ss' =>
      match b_cert s with
      | Some false => Err tt
      | _ =>
        do (d1, a1) <- bind_addrs (is_ssl s) false done acc (s_bind (b_srv s)) ;
        do (d2, a2) <- bind_addrs (is_ssl s) true d1 a1 (s_bind_ssl (b_srv s)) ;
        bind_servers d2 a2 ss'
      end
    end.
  (* src/reverse/http.rs:185-260 bind *)
  Definition http_bind (ss : list bserver) : res unit (list (saddr * bool)) := bind_servers [] [] ss.
End Bind.

(* src/wmcore.rs:297-327 and src/reverse/http.rs:392-418: the server that answers a
   request with the given Host, on a connection accepted by the listener (a, tls)
   whose client sent the given SNI.  A port configured as 0 is not modelled. *)
Definition answering (ss : list bserver) (listener : saddr * bool) (sni : option text) (host : text) : option server :=
  let local := local_servers (map b_srv ss) (sa_port (fst listener)) in
  pick_server (if snd listener then tls_servers local sni else local) host.

(* ---- src/reverse/stream.rs ------------------------------------------------------- *)
Record sserver := SServer { ss_bind : list saddr; ss_mode : text }.
(* src/reverse/stream.rs:77 *)
Definition is_udp (s : sserver) : bool := leqb (ss_mode s) (txt "udp").

Section StreamBind.
  (* Helper::bind_upd (true) or Helper::bind (false) on an address: can it be bound *)
  Context (can_bind : bool -> saddr -> bool).
  (* a stream listener: its address, whether udp, and the index of the server whose
     entry opened it (only StreamUdp keeps it) *)
  (* src/reverse/stream.rs:72-86 *)
  Fixpoint sbind_addrs (i : nat) (udp : bool) (ports : list N) (acc : list (saddr * bool * nat)) (l : list saddr)
    : res unit (list N * list (saddr * bool * nat)) :=
    match l with
    | [] => Ok (ports, acc)
    | a :: l' =>
      if existsb (N.eqb (sa_port a)) ports then sbind_addrs i udp ports acc l'
      else if can_bind udp a then sbind_addrs i udp (sa_port a :: ports) (acc ++ [(a, udp, i)]) l'
      else Err tt
    end.
  (* src/reverse/stream.rs:67-90 *)
  Fixpoint sbind_servers (i : nat) (ports : list N) (acc : list (saddr * bool * nat)) (ss : list sserver)
    : res unit (list (saddr * bool * nat)) :=
    match ss with
    | [] => Ok acc
    | s :: ss' =>
      do (p1, a1) <- sbind_addrs i (is_udp s) ports acc (ss_bind s) ;
      sbind_servers (S i) p1 a1 ss'
    end.
  (* src/reverse/stream.rs:67-90 bind *)
  Definition stream_bind (ss : list sserver) := sbind_servers 0 [] [] ss.
End StreamBind.

(* src/reverse/stream.rs:101-132: the server whose backends a connection on a local
   port gets: the first one with that port *)
Fixpoint stream_server (i : nat) (ss : list sserver) (port : N) : option nat :=
  match ss with
  | [] => None
  | s :: ss' => if list_contains (ss_bind s) port then Some i else stream_server (S i) ss' port
  end.
