(* Nodes in the middle of a tunnel: a server that has an upper server itself passes the
   tunnel connections of its clients on (src/streams/center_trans.rs,
   src/wmcore.rs deal_center_stream), and the way a tunnel client or such a node reaches
   its server (src/streams/center_client.rs inner_connect). *)
From Coq Require Import String.
From Verif Require Import Base Text TextOps ProtModel.
Open Scope N_scope.

(* ---- reaching the server ---------------------------------------------------------- *)
(* the connection to the server: in the clear, or TLS with a server proved to hold a name *)
Inductive way := Clear | Secure (name : text).
(* what dialling did: the connection was made; the handshake for a name was begun *)
Inductive dev := DConn (a : text) | DShake (n : text).

Section Dial.
  (* is a connection to an address made (HealthCheck::connect); is a text a server name
     for rustls (ServerName::try_from); does the handshake for a name succeed, that is,
     does the peer prove it (rustls) *)
  Context (connects : text -> bool) (is_name : text -> bool) (proves : text -> bool).

  (* src/streams/center_trans.rs:52-58, src/streams/center_client.rs:99-105 *)
  Definition name_of (domain : option text) : text := match domain with Some d => d | None => txt "soft.wm-proxy.com" end.

  (* src/streams/center_trans.rs:48-66 CenterTrans::serve up to the relay and
     src/streams/center_client.rs:92-111 inner_connect: the same steps.  tls: is there a
     TLS client configuration *)
  Definition dial (tls : bool) (server : text) (domain : option text) : list dev * res unit way :=
    if connects server then
      if tls then
        let n := name_of domain in
        if is_name n then ([DConn server; DShake n], if proves n then Ok (Secure n) else Err tt)
        else ([DConn server], Err tt)
      else ([DConn server], Ok Clear)
    else ([], Err tt).

  (* src/wmcore.rs:97-116 deal_center_stream with an upper server: what comes of a client's
     connection; None: it is dropped *)
  Definition pass_up (tls : bool) (server : text) (domain : option text) : option way :=
    match snd (dial tls server domain) with Ok w => Some w | _ => None end.
End Dial.

(* ---- the relay (src/streams/center_trans.rs:68-70) ---------------------------------- *)
(* One direction of tokio's copy_bidirectional in one node and the connection it writes
   to: the bytes read and not yet written; the end was read; the end was passed on; the
   relay is gone; the bytes under way on the connection; the connection was shut by its
   writer. *)
Record stage := Stage { sg_buf : bytes; sg_eof : bool; sg_shut : bool; sg_dead : bool; sg_q : bytes; sg_end : bool }.

(* src/streams/center_trans.rs:68: a relay begins with empty hands *)
Definition stage0 : stage := Stage [] false false false [] false.
(* the buffer of copy_bidirectional *)
Definition copy_room : N := 8192.
(* what a relay does in one direction: read some bytes, find the end, write some bytes,
   pass the end on; or break *)
Inductive op := ORead (n : N) | OEof | OWrite (n : N) | OShut | ODie.

Section Chain.
  (* how many bytes a connection holds under way *)
  Context (room : N).

  (* src/streams/center_trans.rs:68-70: one direction of copy_bidirectional; q and e are the
     bytes under way to the node and whether their writer has shut the connection.
     Simplified: a write error is a break at any moment; the flushes are not shown. *)
  Definition hop (o : op) (q : bytes) (e : bool) (s : stage) : bytes * stage :=
    if sg_dead s then (q, s) else
    match o with
    | ORead n =>
      if (0 <? n) && (n <=? nlen q) && (n + nlen (sg_buf s) <=? copy_room) && negb (sg_eof s)
      then (skipn (N.to_nat n) q, Stage (sg_buf s ++ firstn (N.to_nat n) q) false (sg_shut s) false (sg_q s) (sg_end s))
      else (q, s)
    | OEof => if e && (nlen q =? 0) && negb (sg_eof s) then (q, Stage (sg_buf s) true (sg_shut s) false (sg_q s) (sg_end s)) else (q, s)
    | OWrite n =>
      if (0 <? n) && (n <=? nlen (sg_buf s)) && (n + nlen (sg_q s) <=? room) && negb (sg_shut s)
      then (q, Stage (skipn (N.to_nat n) (sg_buf s)) (sg_eof s) (sg_shut s) false (sg_q s ++ firstn (N.to_nat n) (sg_buf s)) (sg_end s))
      else (q, s)
    | OShut => if sg_eof s && (nlen (sg_buf s) =? 0) && negb (sg_shut s) then (q, Stage [] true true false (sg_q s) true) else (q, s)
    | ODie => (q, Stage [] (sg_eof s) (sg_shut s) true (sg_q s) true)
    end.

  (* src/streams/center_trans.rs:68-70: the node number i of a chain acts; the first
     connection comes from the sender *)
  Fixpoint act (i : nat) (o : op) (q : bytes) (e : bool) (l : list stage) : bytes * list stage :=
    match l with
    | [] => (q, [])
    | s :: l' =>
      match i with
      | O => let (q', s') := hop o q e s in (q', s' :: l')
      | S i' => let (sq, l'') := act i' o (sg_q s) (sg_end s) l' in
                (q, Stage (sg_buf s) (sg_eof s) (sg_shut s) (sg_dead s) sq (sg_end s) :: l'')
      end
    end.

  (* the last connection: the one the receiver reads *)
  Fixpoint last_q (q : bytes) (e : bool) (l : list stage) : bytes * bool :=
    match l with [] => (q, e) | s :: l' => last_q (sg_q s) (sg_end s) l' end.
  (* the last connection holds these bytes now *)
  Fixpoint set_last (x : bytes) (q : bytes) (l : list stage) : bytes * list stage :=
    match l with
    | [] => (x, [])
    | s :: l' => let (sq, l'') := set_last x (sg_q s) l' in
                 (q, Stage (sg_buf s) (sg_eof s) (sg_shut s) (sg_dead s) sq (sg_end s) :: l'')
    end.

  (* one direction of a chain: the first connection, the nodes each with the connection
     behind it, the reads of the receiver so far, and whether it has read the end *)
  Record pipe := Pipe { pp_q : bytes; pp_end : bool; pp_stages : list stage; pp_got : list bytes; pp_over : bool }.
  (* the sender writes or ends; a node acts; the receiver reads some bytes or the end *)
  Inductive pev := ESend (b : bytes) | EFin | ENode (i : nat) (o : op) | ETake (n : N) | ETakeEnd.

  (* k nodes, nothing sent *)
  Definition pipe0 (k : nat) : pipe := Pipe [] false (repeat stage0 k) [] false.

  (* src/streams/center_trans.rs:68-70 between src/streams/center_client.rs:202-240 and
     src/streams/center_server.rs:131-145, which read and write the two ends *)
  Definition pstep (p : pipe) (e : pev) : pipe :=
    match e with
    | ESend b => if pp_end p then p else Pipe (pp_q p ++ b) false (pp_stages p) (pp_got p) (pp_over p)
    | EFin => Pipe (pp_q p) true (pp_stages p) (pp_got p) (pp_over p)
    | ENode i o => let (q, l) := act i o (pp_q p) (pp_end p) (pp_stages p) in Pipe q (pp_end p) l (pp_got p) (pp_over p)
    | ETake n =>
      let (x, _) := last_q (pp_q p) (pp_end p) (pp_stages p) in
      if (0 <? n) && (n <=? nlen x) && negb (pp_over p)
      then let (q, l) := set_last (skipn (N.to_nat n) x) (pp_q p) (pp_stages p) in
           Pipe q (pp_end p) l (pp_got p ++ [firstn (N.to_nat n) x]) (pp_over p)
      else p
    | ETakeEnd =>
      let (x, e) := last_q (pp_q p) (pp_end p) (pp_stages p) in
      if e && (nlen x =? 0) then Pipe (pp_q p) (pp_end p) (pp_stages p) (pp_got p) true else p
    end.
  (* src/streams/center_trans.rs:68-70: a history of one direction *)
  Definition prun (p : pipe) (es : list pev) : pipe := fold_left pstep es p.

  (* a chain of k nodes, both ways: node i of the way up is node k - 1 - i of the way down *)
  Record chain := Chain { ch_up : pipe; ch_down : pipe }.
  (* something happens on the way up or down, or a node breaks: copy_bidirectional ends
     both directions together, never one of them *)
  Inductive cev := CUp (e : pev) | CDown (e : pev) | CBreak (i : nat).
  (* src/streams/center_trans.rs:68: a fresh chain *)
  Definition chain0 (k : nat) : chain := Chain (pipe0 k) (pipe0 k).
  (* src/streams/center_trans.rs:68-70 *)
  Definition cstep (c : chain) (e : cev) : chain :=
    match e with
    | CUp (ENode _ ODie) | CDown (ENode _ ODie) => c
    | CUp e => Chain (pstep (ch_up c) e) (ch_down c)
    | CDown e => Chain (ch_up c) (pstep (ch_down c) e)
    | CBreak i =>
      let k := length (pp_stages (ch_up c)) in
      if (i <? k)%nat then Chain (pstep (ch_up c) (ENode i ODie)) (pstep (ch_down c) (ENode (k - 1 - i) ODie)) else c
    end.
  (* src/streams/center_trans.rs:68-70: a history of the chain *)
  Definition crun (c : chain) (es : list cev) : chain := fold_left cstep es c.
End Chain.
