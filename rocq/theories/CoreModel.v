(* Starting the proxy section and the accept loop: src/option.rs load_certs, load_keys,
   get_tls_accept, get_tls_request, get_map_tls_accept, bind, bind_map, and
   src/wmcore.rs deal_center_stream, deal_client_stream, run_serve, server_new_*. *)
From Coq Require Import String.
From Verif Require Import Base Text TextOps AddrModel ProtModel IdModel.
Open Scope N_scope.

(* ---- certificates and keys (src/option.rs) ------------------------------------ *)
(* an entry of a PEM file *)
Inductive pem := PCert (c : N) | PRsa (k : N) | POther (k : N).
(* rustls_pemfile::certs: the certificates of a file, in order *)
Definition pem_certs (l : list pem) : list N := flat_map (fun x => match x with PCert c => [c] | _ => [] end) l.
(* rustls_pemfile::rsa_private_keys: the PKCS1 keys of a file, in order *)
Definition pem_rsa (l : list pem) : list N := flat_map (fun x => match x with PRsa k => [k] | _ => [] end) l.

(* the ports of the proxy section, in the order they are bound *)
Inductive lkind := LClient | LCenter | LHttp | LHttps | LTcp | LProxy | LWeb | LStream.

(* src/option.rs:203-266 ProxyConfig, the fields used here *)
Record pconf := PConf {
  p_tc : bool; p_ts : bool; p_two_way : bool; p_cert : option text; p_key : option text;
  p_map_cert : option text; p_map_key : option text; p_server : option text;
  p_bind : option saddr; p_center : option saddr; p_http : option saddr; p_https : option saddr;
  p_tcp : option saddr; p_proxy : option saddr }.

(* what bind and bind_map give: is there a TLS acceptor for the tunnel port, a TLS
   configuration for the way to the server, is there a tunnel client, an acceptor for
   the https port, and the listeners *)
Record binding := Binding { b_accept : bool; b_request : bool; b_tunnel : bool; b_map : bool; b_listen : list (lkind * saddr) }.
(* how starting ends: process::exit is BExit *)
Inductive started := BOk (b : binding) | BErr | BPanic | BExit.

Section Start.
  (* reading a PEM file: None when it cannot be opened or is malformed; the built-in
     certificates and key; does rustls take a chain with a key; does a root store take a
     certificate; can an address be bound; is the server reached (the flag: with TLS) *)
  Context (read : text -> option (list pem)) (own_certs : list N) (own_key : N)
          (pair_ok : list N -> N -> bool) (root_ok : N -> bool) (can_bind : saddr -> bool) (reach : text -> bool -> bool).

  (* src/option.rs:350-425 *)
  Definition load_certs (path : option text) : option (list N) :=
    match path with Some p => match read p with Some l => Some (pem_certs l) | None => None end | None => Some own_certs end.
  (* src/option.rs:427-477: RSA keys only, and exactly one *)
  Definition load_keys (path : option text) : option N :=
    match match path with Some p => match read p with Some l => pem_rsa l | None => [] end | None => [own_key] end with
    | [k] => Some k
    | _ => None
    end.
  (* src/option.rs:500-534; building the verifier fails without roots *)
  Definition get_tls_accept (c : pconf) : res unit unit :=
    if negb (p_tc c) then Err tt else
    match load_certs (p_cert c) with
    | None => Err tt
    | Some certs =>
      match load_keys (p_key c) with
      | None => Err tt
      | Some key =>
        if p_two_way c then
          if negb (forallb root_ok certs) then Panic
          else match certs with [] => Err tt | _ => if pair_ok certs key then Ok tt else Err tt end
        else if pair_ok certs key then Ok tt else Err tt
      end
    end.
  (* src/option.rs:537-558 *)
  Definition get_tls_request (c : pconf) : res unit unit :=
    if negb (p_ts c) then Err tt else
    match load_certs (p_cert c) with
    | None => Err tt
    | Some certs =>
      if p_two_way c then
        match load_keys (p_key c) with None => Err tt | Some key => if pair_ok certs key then Ok tt else Err tt end
      else Ok tt
    end.
  (* src/option.rs:480-497 *)
  Definition get_map_tls_accept (c : pconf) : bool :=
    match load_certs (p_map_cert c), load_keys (p_map_key c) with Some certs, Some key => pair_ok certs key | _, _ => false end.

  (* Helper::bind of an optional address *)
  Definition listen (k : lkind) (a : option saddr) : option (list (lkind * saddr)) :=
    match a with None => Some [] | Some x => if can_bind x then Some [(k, x)] else None end.
  (* src/option.rs:629-677: one after the other, the first failure ends it *)
  Definition listens (l : list (lkind * option saddr)) : option (list (lkind * saddr)) :=
    fold_left (fun acc x => match acc, listen (fst x) (snd x) with Some r, Some y => Some (r ++ y) | _, _ => None end) l (Some []).

  (* src/option.rs:568-627 bind and 629-677 bind_map, called one after the other by
     ready_serve (src/wmcore.rs:214-233); the https port is bound and let go again when
     there is no acceptor for it *)
  Definition proxy_start (c : pconf) : started :=
    match get_tls_accept c with
    | Panic => BPanic
    | acc =>
      let accept := match acc with Ok _ => true | _ => false end in
      let request := match get_tls_request c with Ok _ => true | _ => false end in
      let client := match p_bind c, p_server c with Some _, Some sv => Some (reach sv request) | _, _ => None end in
      match client with
      | Some false => BExit
      | _ =>
        match listens [(LClient, p_bind c); (LCenter, p_center c); (LHttp, p_http c); (LHttps, p_https c); (LTcp, p_tcp c); (LProxy, p_proxy c)] with
        | None => BErr
        | Some l =>
          let map_ok := match p_https c with Some _ => get_map_tls_accept c | None => false end in
          BOk (Binding accept request (match client with Some _ => true | None => false end) map_ok
                       (if map_ok then l else filter (fun x => match fst x with LHttps => false | _ => true end) l))
        end
      end
    end.
End Start.

(* ---- the accept loop (src/wmcore.rs:251-362) ------------------------------------ *)
(* cf_tls: proxy_accept is there; cf_up: option.server is there; cf_tunnel: center_client
   is there; cf_sid: option.server_id *)
Record ccfg := CCfg { cf_tls : bool; cf_up : bool; cf_tunnel : bool; cf_sid : N }.

(* Where the loop is: polling the listeners; awaiting the TLS handshake of a connection
   on the tunnel port (wmcore.rs:265); awaiting the connection to the upper server
   (center_trans.rs:45-67); awaiting room in the tunnel client's queue
   (center_client.rs:378-381); returned. *)
Inductive cphase := CListen | CShake (c : N) | CDial (c : N) | CRoom (c : N) (id : N) | CEnd.
(* co_servers: center_servers, each with its number and next_id; co_dead: the tunnels
   whose task has ended, so that is_close holds; co_made: how many were made; co_wait:
   connections waiting to be accepted; co_next: next_id of the tunnel client; co_queue:
   how many creates lie in the tunnel client's queue; co_stop: a message in the close
   channel *)
Record core := Core {
  co_phase : cphase; co_servers : list (nat * N); co_dead : list nat; co_made : nat;
  co_wait : list (lkind * N); co_next : N; co_queue : nat; co_stop : bool }.
(* what the binding of the configuration means for the loop *)
Definition ccfg_of (c : pconf) (b : binding) (sid : N) : ccfg :=
  CCfg (b_accept b) (match p_server c with Some _ => true | None => false end) (b_tunnel b) sid.
(* model only: the state before the first event *)
Definition core0 : core := Core CListen [] [] 0 [] client_first 0 false.

Inductive coev :=
| CConn (k : lkind) (c : N)   (* connection c reaches the port of kind k *)
| CAccept (k : lkind)         (* the loop takes the oldest connection of that port *)
| CShaken (ok : bool)         (* the handshake awaited is over *)
| CDialed (ok : bool)         (* the connection to the upper server is there, or failed *)
| CTake                       (* the tunnel client takes a create from its queue *)
| CGone (j : nat)             (* the task of tunnel j ends *)
| CStop                       (* the close signal is sent *)
| CSeeStop.                   (* the loop polls the close channel *)

Inductive coout :=
| XSecure (c : N)                               (* the TLS handshake with c succeeded *)
| XTunnel (j : nat) (c : N)                     (* c is served as tunnel j *)
| XRelay (c : N)                                (* c is joined with the upper server *)
| XVisitor (k : lkind) (c : N) (j : nat) (id : N) (* visitor c is given to tunnel j as stream id *)
| XForward (c : N) (id : N)                     (* c is sent through the tunnel as stream id *)
| XLocal (c : N)                                (* c is served by the local proxy *)
| XServe (k : lkind) (c : N)                    (* c is given to a task of the web or stream section *)
| XDrop (k : lkind) (c : N)                     (* c is closed unserved *)
| XOver (j : nat)                               (* tunnel j is over *)
| XReturn.                                      (* the loop returns *)

(* the oldest waiting connection of a port *)
Definition lkind_eqb (a b : lkind) : bool :=
  match a, b with
  | LClient, LClient | LCenter, LCenter | LHttp, LHttp | LHttps, LHttps | LTcp, LTcp | LProxy, LProxy | LWeb, LWeb | LStream, LStream => true
  | _, _ => false
  end.
(* model only: the first connection waiting at a listener of the given kind *)
Fixpoint take (k : lkind) (l : list (lkind * N)) : option (N * list (lkind * N)) :=
  match l with
  | [] => None
  | (k', c) :: l' =>
    if lkind_eqb k' k then Some (c, l') else match take k l' with Some (x, r) => Some (x, (k', c) :: r) | None => None end
  end.

(* record update *)
Definition with_phase p s := Core p (co_servers s) (co_dead s) (co_made s) (co_wait s) (co_next s) (co_queue s) (co_stop s).
(* record update *)
Definition with_wait w s := Core (co_phase s) (co_servers s) (co_dead s) (co_made s) w (co_next s) (co_queue s) (co_stop s).
(* list membership *)
Definition mem_nat (j : nat) (l : list nat) : bool := existsb (Nat.eqb j) l.
(* channel(10), src/streams/center_client.rs:73 *)
Definition room : nat := 10.

Section Core.
  Context (cf : ccfg).

  (* src/wmcore.rs:97-116 deal_center_stream *)
  Definition deal_center (c : N) (s : core) : core * list coout :=
    if cf_up cf then (with_phase (CDial c) s, [])
    else (Core CListen (co_servers s ++ [(co_made s, server_first)]) (co_dead s) (S (co_made s)) (co_wait s) (co_next s) (co_queue s) (co_stop s),
          [XTunnel (co_made s) c]).

  (* src/wmcore.rs:120-145 deal_client_stream; center_client.rs:371-387 *)
  Definition deal_client (c : N) (s : core) : core * list coout :=
    if cf_tunnel cf then
      let (id, next) := calc_next_id (cf_sid cf) (co_next s) in
      let s' := Core (co_phase s) (co_servers s) (co_dead s) (co_made s) (co_wait s) next (co_queue s) (co_stop s) in
      if (room <=? co_queue s)%nat then (with_phase (CRoom c id) s', [])
      else (Core CListen (co_servers s) (co_dead s) (co_made s) (co_wait s) next (S (co_queue s)) (co_stop s), [XForward c id])
    else (with_phase CListen s, [XLocal c]).

  (* src/wmcore.rs:379-438 server_new_http, _https, _tcp, _proxy; center_server.rs:258-334 *)
  Definition deal_visitor (k : lkind) (c : N) (s : core) : core * list coout :=
    let live := filter (fun x => negb (mem_nat (fst x) (co_dead s))) (co_servers s) in
    match live with
    | [] => (Core CListen [] (co_dead s) (co_made s) (co_wait s) (co_next s) (co_queue s) (co_stop s), [XDrop k c])
    | (j, n) :: l =>
      let (id, next) := calc_next_id (cf_sid cf) n in
      (Core CListen ((j, next) :: l) (co_dead s) (co_made s) (co_wait s) (co_next s) (co_queue s) (co_stop s), [XVisitor k c j id])
    end.

  (* src/wmcore.rs:251-362.  Simplified: local_addr()? in the log lines does not fail;
     the web and stream sections (297-354) are modelled elsewhere, here they take the
     connection and the loop goes on.  An event that is not possible changes nothing. *)
  Definition costep (s : core) (e : coev) : core * list coout :=
    match e with
    | CConn k c => (with_wait (co_wait s ++ [(k, c)]) s, [])
    | CAccept k =>
      match co_phase s with
      | CListen =>
        match take k (co_wait s) with
        | None => (s, [])
        | Some (c, w) =>
          let s := with_wait w s in
          match k with
          | LCenter => if cf_tls cf then (with_phase (CShake c) s, []) else deal_center c s
          | LClient => deal_client c s
          | LHttp | LHttps | LTcp | LProxy => deal_visitor k c s
          | LWeb | LStream => (s, [XServe k c])
          end
        end
      | _ => (s, [])
      end
    | CShaken ok =>
      match co_phase s with
      | CShake c => if ok then let (s', o) := deal_center c (with_phase CListen s) in (s', XSecure c :: o)
                    else (with_phase CListen s, [XDrop LCenter c])
      | _ => (s, [])
      end
    | CDialed ok =>
      match co_phase s with
      | CDial c => (with_phase CListen s, [if ok then XRelay c else XDrop LCenter c])
      | _ => (s, [])
      end
    | CTake =>
      match co_queue s with
      | O => (s, [])
      | S n =>
        match co_phase s with
        | CRoom c id => (with_phase CListen s, [XForward c id])
        | _ => (Core (co_phase s) (co_servers s) (co_dead s) (co_made s) (co_wait s) (co_next s) n (co_stop s), [])
        end
      end
    | CGone j =>
      if (j <? co_made s)%nat && negb (mem_nat j (co_dead s))
      then (Core (co_phase s) (co_servers s) (j :: co_dead s) (co_made s) (co_wait s) (co_next s) (co_queue s) (co_stop s), [XOver j])
      else (s, [])
    | CStop => (Core (co_phase s) (co_servers s) (co_dead s) (co_made s) (co_wait s) (co_next s) (co_queue s) true, [])
    | CSeeStop =>
      match co_phase s with
      | CListen => if co_stop s then (with_phase CEnd s, [XReturn]) else (s, [])
      | _ => (s, [])
      end
    end.

  (* model only: the steps of a whole event list *)
  Fixpoint corun (s : core) (es : list coev) : core * list coout :=
    match es with
    | [] => (s, [])
    | e :: es' => let (s1, o1) := costep s e in let (s2, o2) := corun s1 es' in (s2, o1 ++ o2)
    end.
End Core.
