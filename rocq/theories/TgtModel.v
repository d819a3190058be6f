(* Where requests, stream connections and websockets are sent, which time limits they
   get, and the relaying of websocket messages: reverse/location.rs, reverse_helper.rs,
   reverse/server.rs get_addr_domain, reverse/ws.rs, reverse/common.rs time limits,
   check/health.rs connect_timeout, reverse/http.rs operate and process.

   Left as parameters: std's text form of an IP address (show_ip), webparse's
   get_connect_url (connect_url) and the system's name resolution (resolve). *)
From Coq Require Import String.
From Verif Require Import Base Text TextOps ConfModel AddrModel HealthModel.
Open Scope N_scope.

(* webparse::Scheme: none, http, anything else *)
Inductive scheme := NoScheme | Http | OtherScheme (s : text).
(* webparse::Url, without user, path and query *)
Record url := Url { u_scheme : scheme; u_domain : option text; u_port : option N }.
(* the upstreams a server or location knows: each with its name and with what its
   get_server_addr gives at the moment of the call; upstream.rs:62-68, 78-109 *)
Definition upstreams := list (text * res unit (option saddr)).
(* upstream.rs:78-109 for each of the upstreams: draw is the random number, sa the
   address a member is written as *)
Definition now_of (sa : addr -> saddr) (draw now : N) (h : hcheck) (us : list (text * list server)) : upstreams :=
  map (fun p => (fst p, match get_server_addr draw now h (snd p) with
                        | Ok o => Ok (option_map sa o) | Err e => Err e | Panic => Panic end)) us.

(* reverse_helper.rs:24-33; the same loop in location.rs:216-229 *)
Fixpoint get_upstream_addr (us : upstreams) (name : text) : res unit (option saddr) :=
  match us with
  | [] => Ok None
  | (n, c) :: rest => if leqb n name then c
                      else if match name with [] => true | _ => false end then c
                      else get_upstream_addr rest name
  end.

Section Target.
  Context (show_ip : ipaddr -> text) (connect_url : url -> option text) (resolve : text -> option (list saddr)).

  (* a connection to be made: the text it is looked up by, and whether TLS is spoken *)
  Record target := Target { t_connect : text; t_tls : bool }.
  (* location.rs:149-152: the URL with the chosen member put in *)
  Definition at_member (u : url) (c : option saddr) : url :=
    match c with Some a => Url (u_scheme u) (Some (show_ip (sa_ip a))) (Some (sa_port a)) | None => u end.
  (* location.rs:153-155: a URL without a scheme takes the one of the request *)
  Definition with_scheme (u : url) (asked : scheme) : url :=
    match u_scheme u with NoScheme => Url asked (u_domain u) (u_port u) | _ => u end.
  (* location.rs:137-183: the connection an HTTP request is forwarded over; its
     t_connect is what the Host header is set to as well *)
  Definition http_target (u : url) (us : upstreams) (asked : scheme) : res unit target :=
    match u_domain u with
    | None => Panic                                            (* unwrap, 147 *)
    | Some d =>
      match get_upstream_addr us d with
      | Panic => Panic
      | Err e => Err e
      | Ok c =>
        let u' := with_scheme (at_member u c) asked in
        match connect_url u' with
        | Some t => Ok (Target t (match u_scheme u' with Http => false | _ => true end))
        | None => Err tt
        end
      end
    end.

  (* location.rs:216-247: the websocket's backend and the name given to it (SNI, Host);
     plain is Url::parse of http://addr/ *)
  Definition ws_url (plain : saddr -> option url) (pu : option url) (us : upstreams) : res unit (url * text) :=
    match get_upstream_addr us (match pu with Some r => match u_domain r with Some d => d | None => [] end | None => [] end) with
    | Panic => Panic
    | Err e => Err e
    | Ok None => Err tt
    | Ok (Some a) =>
      match pu with
      | Some r => Ok (at_member r (Some a), match u_domain r with Some d => d | None => [] end)
      | None => match plain a with Some u => Ok (u, show_ip (sa_ip a)) | None => Err tt end
      end
    end.

  (* reverse/server.rs:152-157: the URL's port replaces the member's *)
  Definition with_port (p : option N) (c : option saddr) : option saddr :=
    match c, p with Some a, Some q => Some (SAddr (sa_ip a) q) | _, _ => c end.
  (* reverse/server.rs:145-169: the backend of a stream connection and the name given to it *)
  Definition stream_target (own : option text) (pu : option url) (us : upstreams) (up_name : text)
    : res unit (option saddr * option text) :=
    let domain := match own with Some d => Some d | None => match pu with Some u => u_domain u | None => None end end in
    do first <- (match pu with
                 | None => Ok None
                 | Some u =>
                   do c <- (match u_domain u with Some d => get_upstream_addr us d | None => Ok None end) ;
                   match with_port (u_port u) c with
                   | Some a => Ok (Some a)
                   | None => match connect_url u with
                             | Some t => match resolve t with Some l => Ok (hd_error l) | None => Err tt end
                             | None => Ok None
                             end
                   end
                 end) ;
    match first with
    | Some a => Ok (Some a, domain)
    | None => do c <- get_upstream_addr us up_name ; Ok (c, domain)
    end.
End Target.

(* ---- UDP ------------------------------------------------------------------------------ *)
(* stream.rs:60-65: the upstreams of a stream server are its own, then those of the section *)
Definition stream_upstreams (own section : upstreams) : upstreams := own ++ section.
(* stream.rs:265-270: the loop goes on after a hit *)
Fixpoint udp_addr (us : upstreams) (up_name : text) (found : option saddr) : res unit (option saddr) :=
  match us with
  | [] => Ok found
  | (n, c) :: rest => if leqb n up_name then do x <- c ; udp_addr rest up_name x else udp_addr rest up_name found
  end.
(* stream.rs:253-275: where the datagrams of a client without a session go; an error is
   logged and the datagram is lost, a panic is one of the task that runs all listeners
   (wmcore.rs:341-350) *)
Definition udp_target (us : upstreams) (up_name : text) : res unit saddr :=
  do c <- udp_addr us up_name None ; match c with Some a => Ok a | None => Err tt end.

(* ---- time limits -------------------------------------------------------------------- *)
(* reverse/common.rs:33-48 *)
Record limits := Limits { client_read : option N; client_write : option N; client_total : option N; client_keep : option N;
                          proxy_connect : option N; proxy_read : option N; proxy_write : option N; proxy_total : option N }.
(* wenmeng::TimeoutLayer *)
Record layer := Layer { y_connect : option N; y_read : option N; y_write : option N; y_total : option N; y_keep : option N }.
(* Option::is_some *)
Definition is_some {A} (o : option A) : bool := match o with Some _ => true | None => false end.
(* reverse/common.rs:173-202 *)
Definition proxy_layer (l : limits) : option layer :=
  if is_some (proxy_connect l) || is_some (proxy_read l) || is_some (proxy_write l) || is_some (proxy_total l)
  then Some (Layer (proxy_connect l) (proxy_read l) (proxy_write l) (proxy_total l) None) else None.
(* reverse/common.rs:204-233 *)
Definition client_layer (l : limits) : option layer :=
  if is_some (client_read l) || is_some (client_write l) || is_some (client_total l) || is_some (client_keep l)
  then Some (Layer None (client_read l) (client_write l) (client_total l) (client_keep l)) else None.
(* reverse/http.rs:463-481 process: the limits of a client connection; the servers are
   those of the listener *)
Definition connection_layer (servers : list limits) : res unit (option layer) :=
  match servers with [] => Err tt | s :: _ => Ok (client_layer s) end.

(* ---- health.rs:247-259 connect_timeout ------------------------------------------------- *)
(* what becomes of an attempt: accepted, refused, or no answer at all *)
Inductive fate := Accepts | Refuses | Silent.
(* the outcome: connected, failed, or still waiting *)
Inductive outcome := Connected (a : addr) | Failed | Waiting.
(* health.rs:206-243 connect, with backends that do not answer: without a limit the
   caller waits (the system's own limit, after which the attempt counts as refused, is
   not modelled) *)
Fixpoint connect_wait (f : addr -> fate) (t : N) (addrs : list addr) (h : hcheck) : outcome * hcheck :=
  match addrs with
  | [] => (Failed, h)
  | a :: rest =>
    if is_fall_down a t h then connect_wait f t rest h
    else match f a with
         | Accepts => (Connected a, add_rise_up a t h)
         | Refuses => connect_wait f t rest (add_fall_down a t h)
         | Silent => (Waiting, h)
         end
  end.
(* health.rs:247-259 *)
Definition connect_timeout (limited : bool) (f : addr -> fate) (t : N) (addrs : list addr) (h : hcheck) : outcome * hcheck :=
  match connect_wait f t addrs h with
  | (Waiting, h') => (if limited then Failed else Waiting, h')
  | r => r
  end.
(* model only: a history of attempts to reach the same name, one after another *)
Fixpoint attempts (limited : bool) (f : addr -> fate) (ts : list N) (addrs : list addr) (h : hcheck) : hcheck :=
  match ts with
  | [] => h
  | t :: ts' => attempts limited f ts' addrs (snd (connect_timeout limited f t addrs h))
  end.

(* ---- reverse/http.rs:428-453 operate ----------------------------------------------------- *)
(* ProtError, as far as is_read_timeout tells: a time limit on reading that ran out,
   on the client's side or not; anything else *)
Inductive failure := ReadTimeout (client : bool) | OtherFailure.
(* the answer as the client sees it: its status, and whether it names the server *)
Record seen := Seen { v_status : N; v_server : bool }.
(* reverse/http.rs:428-453; Panic: the connection is closed *)
Definition seen_answer (inner : res failure N) : res unit seen :=
  match inner with
  | Ok st => Ok (Seen st true)
  | Err (ReadTimeout false) => Ok (Seen 408 false)
  | Err _ => Ok (Seen 500 false)
  | Panic => Panic
  end.

(* ---- ws.rs: relaying ------------------------------------------------------------------------- *)
(* webparse::ws::OwnedMessage *)
Inductive wmsg := MData (binary : bool) (b : list N) | MPing (b : list N) | MPong (b : list N) | MClose (reason : option (N * list N)).
(* what wenmeng calls on a frame from its side *)
Inductive wcall := OnClose (reason : option (N * list N)) | OnPing (b : list N) | OnPong (b : list N) | OnMessage (binary : bool) (b : list N).
(* ws.rs:79-107, 144-172: what is put into the channel to the other side *)
Definition passed_on (c : wcall) : wmsg :=
  match c with OnClose r => MClose r | OnPing b => MPing b | OnPong b => MPong b | OnMessage k b => MData k b end.
(* the capacity of both channels, ws.rs:53-54 *)
Definition chan_cap : nat := 10.
(* ws.rs:35-76 on_open: turned away, or accepted with or without a backend *)
Inductive opened := Refused | Opened (relay : bool).
(* ws.rs:35-76; loc: the location found and whether it has is_ws; back: what
   get_reverse_url gives; reach: whether that backend can be connected to *)
Definition ws_open (loc : option bool) (back : res unit (url * text)) (reach : url -> text -> bool) : res unit opened :=
  match loc with
  | None => Ok Refused
  | Some false => Ok Refused
  | Some true => match back with
                 | Ok (u, d) => Ok (if reach u d then Opened true else Refused)
                 | Err _ => Ok (Opened false)
                 | Panic => Panic
                 end
  end.
(* w_relay: the handshake found a backend (ws.rs:47-70); the channels to the backend and
   to the client; w_gone: the task of the backend connection has ended (ws.rs:63-71) *)
Record wst := WSt { w_relay : bool; w_up : list wmsg; w_down : list wmsg; w_gone : bool }.
(* the sides of the relay *)
Inductive side := Client | Backend.
(* the scheduler: a frame has arrived from a side and its callback runs; a side's loop
   takes a message out of its channel and sends it; the backend connection ends *)
Inductive wev := WCall (from : side) (c : wcall) | WTake (to : side) | WGone.
(* what happened: a callback succeeded; a callback failed, which ends the client's
   connection; a message was sent to a side *)
Inductive wout := WDone (from : side) (c : wcall) | WFailed (c : wcall) | WSent (to : side) (m : wmsg).
(* ws.rs:79-107, 144-172 and wenmeng's loops.  A full channel: the callback waits, no
   other frame of that side is looked at meanwhile; here the event does nothing.  Without a
   sender (ws.rs:80, 87, 95, 103) the callback succeeds and nothing is sent.  Sending into
   a channel whose receiver is gone is an error, which on_close ignores (ws.rs:81). *)
Definition wstep (s : wst) (e : wev) : wst * list wout :=
  match e with
  | WCall Client c =>
    if negb (w_relay s) then (s, [WDone Client c])
    else if w_gone s then (s, match c with OnClose _ => [WDone Client c] | _ => [WFailed c] end)
    else if (length (w_up s) <? chan_cap)%nat
    then (WSt (w_relay s) (w_up s ++ [passed_on c]) (w_down s) (w_gone s), [WDone Client c]) else (s, [])
  | WCall Backend c =>
    if negb (w_relay s) || w_gone s then (s, [])
    else if (length (w_down s) <? chan_cap)%nat
    then (WSt (w_relay s) (w_up s) (w_down s ++ [passed_on c]) (w_gone s), [WDone Backend c]) else (s, [])
  | WTake Backend =>
    if w_gone s then (s, [])
    else match w_up s with m :: l => (WSt (w_relay s) l (w_down s) (w_gone s), [WSent Backend m]) | [] => (s, []) end
  | WTake Client => match w_down s with m :: l => (WSt (w_relay s) (w_up s) l (w_gone s), [WSent Client m]) | [] => (s, []) end
  | WGone => (WSt (w_relay s) [] (w_down s) true, [])
  end.
(* model only: all steps of a schedule *)
Fixpoint wrun (s : wst) (es : list wev) : wst * list wout :=
  match es with [] => (s, []) | e :: es' => let '(s1, o) := wstep s e in let '(s2, os) := wrun s1 es' in (s2, o ++ os) end.
