(* The SOCKS5 server: src/proxy/socks5.rs.

   A client connection is the bytes already buffered and the segments still to
   come, in the order the network delivers them; after the last segment the
   connection is closed (or fails, which is the same to this code).  A panic of
   webparse's Buf (get_u8, advance on too few bytes) is explicit.
   Parameters: resolve is to_socket_addrs of a host name and port (None: error;
   the name is given as bytes, from_utf8_lossy being the identity on UTF-8),
   connect tells whether a connection to an address can be made. *)
From Verif Require Import Base Text AddrModel.
Open Scope N_scope.

(* n as k bytes, most significant first (to_be_bytes, octets, put_u16) and back
   (get_u8, get_u16 repeated) *)
Fixpoint be (k : nat) (n : N) : bytes := match k with O => [] | S k' => be k' (n / 256) ++ [n mod 256] end.
(* get_u16: network byte order *)
Definition unbe (b : bytes) : N := fold_left (fun a x => a * 256 + x) b 0.

(* what is buffered, and the segments still to come *)
Definition inp := (bytes * list bytes)%type.
(* socks5.rs:114-138 read_len; an empty read is end of file.  What has been read
   stays in the buffer also on failure. *)
Fixpoint read_len_go (size : N) (buf : bytes) (segs : list bytes) : bool * inp :=
  if size <=? nlen buf then (true, (buf, segs))
  else match segs with
       | [] => (false, (buf, []))
       | [] :: segs' => (false, (buf, segs'))
       | s :: segs' => read_len_go size (buf ++ s) segs'
       end.
(* socks5.rs:114-138 *)
Definition read_len (size : N) (i : inp) : bool * inp := read_len_go size (fst i) (snd i).

(* SizeNotMatch keeps the connection for the caller *)
Inductive serr := ESize (i : inp) | EProt | EVerify | ENoSupport | EIo.
(* socks5.rs:114-138 with `?` *)
Definition need (size : N) (i : inp) : res serr inp :=
  let '(ok, i) := read_len size i in if ok then Ok i else Err EIo.
(* webparse Buf get_u8 *)
Definition get8 (i : inp) : res serr (N * inp) :=
  match fst i with [] => Panic | b :: r => Ok (b, (r, snd i)) end.
(* webparse Buf advance *)
Definition advance (n : N) (i : inp) : res serr inp :=
  if nlen (fst i) <? n then Panic else Ok (skipn (N.to_nat n) (fst i), snd i).
(* k bytes of the buffer as one number (k calls of get_u8, or get_u16) *)
Definition getn (k : nat) (i : inp) : res serr (N * inp) :=
  if (length (fst i) <? k)%nat then Panic else Ok (unbe (firstn k (fst i)), (skipn k (fst i), snd i)).

(* socks5.rs:28-32 *)
Record scfg := SCfg { user : option bytes; pass : option bytes; bind_ip : option ipaddr }.
(* socks5.rs:330-332 *)
Definition with_password (c : scfg) : bool := match user c, pass c with Some _, Some _ => true | _, _ => false end.

(* socks5.rs:57-82; the result of both read_len is ignored *)
Definition read_head (c : scfg) (i : inp) : res serr (N * inp) :=
  let '(_, i) := read_len 2 i in
  do (v, i) <- get8 i ;
  if negb (v =? 5) then Err (ESize i)
  else
    do (len, i) <- get8 i ;
    let '(_, i) := read_len len i in
    let verify := if with_password c then (if existsb (fun b => b =? 2) (fst i) then 2 else 255) else 0 in
    do i <- advance len i ;
    Ok (verify, i).

(* socks5.rs:95-100 and 104-109 *)
Definition check_part (want : option bytes) (len : N) (i : inp) : res serr (bool * inp) :=
  match want with
  | None => Ok (true, i)
  | Some v => if (len =? 0) || negb (leqb v (firstn (N.to_nat len) (fst i))) then Ok (false, i)
              else do i <- advance len i ; Ok (true, i)
  end.
(* socks5.rs:85-111 *)
Definition read_verify (c : scfg) (i : inp) : res serr (bool * inp) :=
  do i <- need 2 i ;
  do (v, i) <- get8 i ;
  if negb (v =? 1) then Err EProt
  else
    do (ulen, i) <- get8 i ;
    do i <- need ulen i ;
    do (ok, i) <- check_part (user c) ulen i ;
    if negb ok then Ok (false, i)
    else
      do i <- need 1 i ;
      do (plen, i) <- get8 i ;
      do i <- need plen i ;
      check_part (pass c) plen i.

Section Socks.
  Context (resolve : bytes -> N -> option (list saddr)) (connect : saddr -> bool).
  (* socks5.rs:146-194 *)
  Definition read_addr (i : inp) : res serr (saddr * inp) :=
    do (atyp, i) <- get8 i ;
    if atyp =? 1 then
      do i <- need 6 i ; do (ip, i) <- getn 4 i ; do (port, i) <- getn 2 i ; Ok (SAddr (V4 ip) port, i)
    else if atyp =? 3 then
      do i <- need 1 i ; do (len, i) <- get8 i ; do i <- need (len + 2) i ;
      let name := firstn (N.to_nat len) (fst i) in
      do i <- advance len i ; do (port, i) <- getn 2 i ;
      match resolve name port with
      | None => Err EIo
      | Some [] => Panic
      | Some (a :: _) => Ok (a, i)
      end
    else if atyp =? 4 then
      do i <- need 18 i ; do (ip, i) <- getn 16 i ; do (port, i) <- getn 2 i ; Ok (SAddr (V6 ip) port, i)
    else Err EProt.
  (* socks5.rs:202-220 *)
  Definition encode_addr (a : saddr) : bytes :=
    match sa_ip a with
    | V4 ip => 1 :: be 4 ip ++ be 2 (sa_port a)
    | V6 ip => 4 :: be 16 ip ++ be 2 (sa_port a)
    end.
  (* socks5.rs:228-245 *)
  Definition read_request (i : inp) : res serr (N * saddr * inp) :=
    do i <- need 4 i ;
    do (v, i) <- get8 i ;
    if negb (v =? 5) then Err EProt
    else
      do (cmd, i) <- get8 i ;
      do (rsv, i) <- get8 i ;
      if negb (rsv =? 0) then Err EProt
      else do (a, i) <- read_addr i ; Ok (cmd, a, i).

  (* what the client and the network see; EvForward is what copy_bidirectional
     sends to the target: everything that comes after the buffered bytes *)
  Inductive sev := EvWrite (b : bytes) | EvConnect (a : saddr) | EvForward (b : bytes) | EvAssociate (ip : ipaddr).
  (* how a connection ends *)
  Inductive sout := Done | Failed (e : serr) | Crashed.
  (* `?` of the code, with the events so far *)
  Definition lift {A} (ev : list sev) (r : res serr A) (k : A -> list sev * sout) : list sev * sout :=
    match r with
    | Ok a => let '(e, o) := k a in (ev ++ e, o)
    | Err e => (ev, Failed e)
    | Panic => (ev, Crashed)
    end.
  (* socks5.rs:287-326 *)
  Definition serve_request (c : scfg) (i : inp) : list sev * sout :=
    lift [] (read_request i) (fun '(cmd, a, i) =>
      if cmd =? 1 then
        if connect a then ([EvConnect a; EvWrite [5; 0; 0; 1; 0; 0; 0; 0; 0; 0]; EvForward (concat (snd i))], Done)
        else ([EvConnect a; EvWrite [5; 1; 0; 1; 0; 0; 0; 0; 0; 0]], Failed EIo)
      else if cmd =? 2 then ([], Failed ENoSupport)
      else if cmd =? 3 then
        match bind_ip c with None => ([], Failed ENoSupport) | Some ip => ([EvAssociate ip], Done) end
      else ([], Failed EProt)).
  (* socks5.rs:247-328 *)
  Definition process (c : scfg) (i : inp) : list sev * sout :=
    lift [] (read_head c i) (fun '(verify, i) =>
      if verify =? 255 then ([EvWrite [5; 255]], Failed EVerify)
      else if verify =? 2 then
        lift [EvWrite [5; 2]] (read_verify c i) (fun '(ok, i) =>
          if ok then let '(e, o) := serve_request c i in (EvWrite [1; 0] :: e, o)
          else ([EvWrite [1; 1]], Failed EVerify))
      else let '(e, o) := serve_request c i in (EvWrite [5; verify] :: e, o)).

  (* ---- UDP association: socks5.rs:340-349, 358-384, 412-481 --------------------- *)
  (* tcp_write_reply *)
  Definition reply (succ : bool) (a : saddr) : bytes := [5; if succ then 0 else 1; 0] ++ encode_addr a.
  (* udp_parse_request: the datagram is all there is to read *)
  Definition udp_parse (d : bytes) : res serr (N * saddr * bytes) :=
    if nlen d <? 3 then Err EProt
    else
      do (rsv, i) <- getn 2 (d, []) ;
      do (flag, i) <- get8 i ;
      do (a, i) <- read_addr i ;
      Ok (flag, a, fst i).
  (* the relay: peer is the address the inbound socket has been connected to; sends a d and
     replies p d: sending succeeds on the outbound socket (which is an IPv4 one) and on the
     inbound one; an error ends the relay.  AsModel adds the control connection. *)
  Inductive ustate := URun (peer : option saddr) | UQuiet (peer : option saddr) | UEnded.
  (* a datagram arrives on the inbound socket: a connected UDP socket only
     receives from its peer *)
  Definition udp_in (sends : saddr -> bytes -> bool) (s : ustate) (from : saddr) (d : bytes) : ustate * list (saddr * bytes) :=
    match s with
    | URun peer =>
      if match peer with Some p => ip_eqb (sa_ip p) (sa_ip from) && (sa_port p =? sa_port from) | None => true end then
        match udp_parse d with
        | Ok (flag, a, data) => if flag =? 0 then (if sends a data then (URun (Some from), [(a, data)]) else (UEnded, [])) else (UQuiet (Some from), [])
        | _ => (UEnded, [])
        end
      else (s, [])
    | _ => (s, [])
    end.
  (* a datagram arrives on the outbound socket; what is sent to the peer *)
  Definition udp_out (replies : saddr -> bytes -> bool) (s : ustate) (from : saddr) (d : bytes) : ustate * list (saddr * bytes) :=
    match s with
    | URun (Some p) | UQuiet (Some p) =>
      let x := [0; 0; 0] ++ encode_addr from ++ d in if replies p x then (s, [(p, x)]) else (UEnded, [])
    | URun None | UQuiet None => (UEnded, [])
    | UEnded => (UEnded, [])
    end.
End Socks.
