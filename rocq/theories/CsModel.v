(* The tunnel server: src/streams/center_server.rs inner_serve, together with the
   visitors that open streams through it (src/trans/tcp.rs, src/trans/http.rs).

   The asynchronous loop is a small-step machine.  The scheduler, the network and
   the other tasks are the event list.  `biased` priority of select! is dropped:
   every branch may fire whenever it is possible, which only adds behaviours. *)
From Coq Require Import String.
From Verif Require Import Base Text ProtModel.
Open Scope N_scope.

(* text as bytes: domains, names, hosts *)
Definition key := bytes.

(* src/option.rs:203-266 username/password *)
Record creds := Creds { c_user : option key; c_pass : option key }.

(* src/prot/token.rs:58-66 is_check_succ *)
Definition check_succ (c : creds) (u p : key) : bool :=
  match c_user c with Some u' => leqb u' u | None => true end &&
  match c_pass c with Some p' => leqb p' p | None => true end.

(* How the visitor reached the server (src/streams/center_server.rs:258-334):
   VHttp carries the Host of the first request, VMode the mapping mode. *)
Inductive visit := VHttp (host : key) | VMode (mode : key).

(* src/trans/tcp.rs:49-65 / src/trans/http.rs:95-113: last matching mapping;
   the result is the domain put into the create frame. *)
Fixpoint last_match (p : mapping -> bool) (ms : list mapping) (acc : option mapping) :=
  match ms with
  | [] => acc
  | m :: ms' => last_match p ms' (if p m then Some m else acc)
  end.
(* src/trans/tcp.rs:49-65, src/trans/http.rs:95-113: the domain put into the create frame *)
Definition visit_domain (ms : list mapping) (v : visit) : option key :=
  match v with
  | VMode mode => match last_match (fun m => leqb (m_mode m) mode) ms None with
                  | Some m => Some (m_name m) | None => None end
  | VHttp host => match last_match (fun m => leqb (m_domain m) host) ms None with
                  | Some _ => Some host | None => None end
  end.

(* Where the loop stands: in select!, in the decode loop, waiting in
   `sender.send(p).await` for room in a handler's channel, or finished. *)
Inductive finish := FinClosed | FinRefused | FinError (e : perr) | FinPanic.
(* the points of inner_serve (center_server.rs:114-235) at which it can be seen *)
Inductive phase := PSelect | PDecode | PBlocked (h : N) (f : frame) | PEnd (r : finish).

Record sst := SSt {
  s_map : list (N * N);            (* stream id -> handler *)
  s_box : N -> list frame;         (* content of each handler's channel(10) *)
  s_gone : list N;                 (* handlers whose receiver was dropped *)
  s_work : list (N * option key * N);   (* receiver_work, channel(10) *)
  s_out : list frame;              (* receiver, channel(100) *)
  s_rbuf : bytes; s_wbuf : bytes;
  s_phase : phase;
  s_verify : bool; s_shut : bool;
  s_maps : list mapping;           (* registered mappings *)
  s_open : list N;                 (* stream ids with a local end *)
  s_next : N                       (* next handler name *)
}.

(* What happens in the world. *)
Inductive eff :=
| ODecoded (f : frame)             (* a frame accepted for processing *)
| ORefused (f : frame)             (* a frame of an unauthenticated peer *)
| OBind (s h : N)                  (* stream id s now belongs to handler h *)
| OServe (s h : N)                 (* a proxy service was started for the peer *)
| OMaps (ms : list mapping)        (* mappings registered for the peer *)
| OPut (h : N) (f : frame)         (* frame handed to handler h *)
| ODrop (h : N) (f : frame)        (* handler h is gone *)
| OBye (h : N) (f : frame)         (* close notice when the tunnel ends *)
| OGot (h : N) (f : frame)         (* handler h received the frame *)
| ORead (b : bytes)                (* bytes read from the tunnel socket *)
| OWrote (b : bytes)               (* bytes written to the tunnel socket *)
| OEnd (r : finish).

Inductive ev :=
| EvVisit (s : N) (v : visit)      (* a visitor asks for a stream with id s *)
| EvData (s : N) (d : bytes)       (* a local end sends data on its stream *)
| EvClose (s : N) (r : bytes)      (* a local end sends a close *)
| EvConsume (h : N)                (* handler h receives one frame *)
| EvGone (h : N)                   (* handler h drops its receiver *)
| EvWork                           (* select!: receiver_work.recv() *)
| EvOut                            (* select!: receiver.recv() *)
| EvRead (b : bytes)               (* select!: reader.read; [] is end of file *)
| EvReadErr
| EvWrite (n : N)                  (* select!: writer.write accepted n bytes *)
| EvWriteErr
| EvDecode.                        (* one round of the decode loop *)

Definition set_phase p st := SSt (s_map st) (s_box st) (s_gone st) (s_work st) (s_out st)
  (s_rbuf st) (s_wbuf st) p (s_verify st) (s_shut st) (s_maps st) (s_open st) (s_next st).
(* record update *)
Definition set_rbuf b st := SSt (s_map st) (s_box st) (s_gone st) (s_work st) (s_out st)
  b (s_wbuf st) (s_phase st) (s_verify st) (s_shut st) (s_maps st) (s_open st) (s_next st).
(* record update *)
Definition set_wbuf b st := SSt (s_map st) (s_box st) (s_gone st) (s_work st) (s_out st)
  (s_rbuf st) b (s_phase st) (s_verify st) (s_shut st) (s_maps st) (s_open st) (s_next st).
(* record update *)
Definition set_map m st := SSt m (s_box st) (s_gone st) (s_work st) (s_out st)
  (s_rbuf st) (s_wbuf st) (s_phase st) (s_verify st) (s_shut st) (s_maps st) (s_open st) (s_next st).
(* record update *)
Definition set_box h q st := SSt (s_map st) (fun x => if x =? h then q else s_box st x)
  (s_gone st) (s_work st) (s_out st)
  (s_rbuf st) (s_wbuf st) (s_phase st) (s_verify st) (s_shut st) (s_maps st) (s_open st) (s_next st).
(* record update *)
Definition set_gone g st := SSt (s_map st) (s_box st) g (s_work st) (s_out st)
  (s_rbuf st) (s_wbuf st) (s_phase st) (s_verify st) (s_shut st) (s_maps st) (s_open st) (s_next st).
(* record update *)
Definition set_work w st := SSt (s_map st) (s_box st) (s_gone st) w (s_out st)
  (s_rbuf st) (s_wbuf st) (s_phase st) (s_verify st) (s_shut st) (s_maps st) (s_open st) (s_next st).
(* record update *)
Definition set_out o st := SSt (s_map st) (s_box st) (s_gone st) (s_work st) o
  (s_rbuf st) (s_wbuf st) (s_phase st) (s_verify st) (s_shut st) (s_maps st) (s_open st) (s_next st).
(* record update *)
Definition set_verify v st := SSt (s_map st) (s_box st) (s_gone st) (s_work st) (s_out st)
  (s_rbuf st) (s_wbuf st) (s_phase st) v (s_shut st) (s_maps st) (s_open st) (s_next st).
(* record update *)
Definition set_shut v st := SSt (s_map st) (s_box st) (s_gone st) (s_work st) (s_out st)
  (s_rbuf st) (s_wbuf st) (s_phase st) (s_verify st) v (s_maps st) (s_open st) (s_next st).
(* record update *)
Definition set_maps ms st := SSt (s_map st) (s_box st) (s_gone st) (s_work st) (s_out st)
  (s_rbuf st) (s_wbuf st) (s_phase st) (s_verify st) (s_shut st) ms (s_open st) (s_next st).
(* src/trans/tcp.rs:60-73, src/trans/http.rs:117-135: a visitor has sent its create; its stream is open *)
Definition open_new s st := SSt (s_map st) (s_box st) (s_gone st) (s_work st) (s_out st)
  (s_rbuf st) (s_wbuf st) (s_phase st) (s_verify st) (s_shut st) (s_maps st) (s :: s_open st)
  (s_next st + 1).

(* src/streams/center_server.rs:60-71,103-111: state at the start of inner_serve;
   a server without credentials starts verified. *)
Definition is_none {A} (o : option A) : bool := match o with None => true | Some _ => false end.
(* center_server.rs:92-113: the state when the loop starts *)
Definition s_init (c : creds) : sst :=
  SSt [] (fun _ => []) [] [] [] [] [] PSelect
      (is_none (c_user c) && is_none (c_pass c)) false [] [] 0.

Definition handler_cap : N := 10.   (* channel::<ProtFrame>(10) *)
Definition work_cap : N := 10.      (* center_server.rs:62 *)
Definition out_cap : N := 100.      (* center_server.rs:61 *)

Definition gone (h : N) (st : sst) : bool := existsb (N.eqb h) (s_gone st).
(* model only: a visitor holds this stream *)
Definition is_open (s : N) (st : sst) : bool := existsb (N.eqb s) (s_open st).

(* center_server.rs:162-165: after a select! branch *)
Definition after_select (st : sst) : sst :=
  set_phase (if s_shut st then PSelect else PDecode) st.

(* center_server.rs:179-180 *)
Definition refuse_frame : frame := FClose 0 (txt "not verify so close").

(* `sender.send(p).await` (center_server.rs:209-213) *)
Definition deliver (h : N) (f : frame) (st : sst) : sst * list eff :=
  if gone h st then (set_phase PDecode st, [ODrop h f])
  else if nlen (s_box st h) <? handler_cap
       then (set_phase PDecode (set_box h (s_box st h ++ [f]) st), [OPut h f])
       else (set_phase (PBlocked h f) st, []).

(* center_server.rs:169-219: one decoded frame *)
Definition handle (c : creds) (f : frame) (st : sst) : sst * list eff :=
  match f with
  | FToken u p =>
    if negb (s_verify st) && check_succ c u p then (set_verify true st, [ODecoded f])
    else if negb (s_verify st)
    then (set_phase PSelect (set_shut true (set_wbuf (s_wbuf st ++ fst (encode refuse_frame)) st)),
          [ORefused f])
    else (st, [ODecoded f])
  | _ =>
    if negb (s_verify st)
    then (set_phase PSelect (set_shut true (set_wbuf (s_wbuf st ++ fst (encode refuse_frame)) st)),
          [ORefused f])
    else match f with
         | FCreate s _ =>
           let h := s_next st in
           (open_new s (set_map (insert N.eqb s h (s_map st)) st),
            [ODecoded f; OBind s h; OServe s h])
         | FClose s _ | FData s _ =>
           match lookup N.eqb s (s_map st) with
           | Some h => let '(st', es) := deliver h f st in (st', ODecoded f :: es)
           | None => (st, [ODecoded f])
           end
         | FMapping _ ms => (set_maps ms st, [ODecoded f; OMaps ms])
         | FToken _ _ => (st, [ODecoded f])
         end
  end.

(* center_server.rs:230-234: tell every handler; try_send does nothing when the
   channel is full or closed. *)
Fixpoint say_bye (m : list (N * N)) (st : sst) : sst * list eff :=
  match m with
  | [] => (st, [])
  | (s, h) :: m' =>
    let f := FClose s [] in
    if gone h st || negb (nlen (s_box st h) <? handler_cap) then say_bye m' st
    else let '(st', es) := say_bye m' (set_box h (s_box st h ++ [f]) st) in
         (st', OBye h f :: es)
  end.
(* center_server.rs:230-235 *)
Definition tunnel_closed (st : sst) : sst * list eff :=
  let '(st', es) := say_bye (s_map st) st in
  (set_phase (PEnd FinClosed) st', es ++ [OEnd FinClosed]).

(* One event.  Events that are not possible in the current phase do nothing. *)
Definition step (c : creds) (st : sst) (e : ev) : sst * list eff :=
  match e with
  (* src/trans/tcp.rs:67-72, src/trans/http.rs:112-114; the create is put into
     sender_work.  A full channel makes the visitor wait: event without effect. *)
  | EvVisit s v =>
    match visit_domain (s_maps st) v with
    | None => (st, [])
    | Some d => if nlen (s_work st) <? work_cap
                then (open_new s (set_work (s_work st ++ [(s, Some d, s_next st)]) st), [])
                else (st, [])
    end
  (* data comes only from a stream that was opened: src/trans/http.rs:117-122,
     src/trans/tcp.rs:60-73, center_server.rs:186-207 *)
  | EvData s d =>
    if is_open s st && (nlen (s_out st) <? out_cap) then (set_out (s_out st ++ [FData s d]) st, [])
    else (st, [])
  | EvClose s r =>
    if nlen (s_out st) <? out_cap then (set_out (s_out st ++ [FClose s r]) st, []) else (st, [])
  | EvConsume h =>
    match s_box st h with
    | f :: q => if gone h st then (st, []) else (set_box h q st, [OGot h f])
    | [] => (st, [])
    end
  | EvGone h => (set_gone (h :: s_gone st) st, [])
  | EvDecode =>
    match s_phase st with
    | PDecode =>
      match decode_frame (s_rbuf st) with
      | DWait => (set_phase PSelect st, [])
      | DFrame f rest => handle c f (set_rbuf rest st)
      | DFail e rest => (set_phase (PEnd (FinError e)) (set_rbuf rest st), [OEnd (FinError e)])
      | DPanic => (set_phase (PEnd FinPanic) st, [OEnd FinPanic])
      end
    | PBlocked h f => deliver h f st
    | _ => (st, [])
    end
  | EvWork =>
    match s_phase st, s_work st with
    | PSelect, (s, d, h) :: w =>
      (after_select (set_wbuf (s_wbuf st ++ fst (encode (FCreate s d)))
         (set_map (insert N.eqb s h (s_map st)) (set_work w st))), [OBind s h])
    | _, _ => (st, [])
    end
  | EvOut =>
    match s_phase st, s_out st with
    | PSelect, f :: o =>
      (after_select (set_wbuf (s_wbuf st ++ fst (encode f)) (set_out o st)), [])
    | _, _ => (st, [])
    end
  | EvRead b =>
    match s_phase st, b with
    | PSelect, [] => tunnel_closed st
    | PSelect, _ => (after_select (set_rbuf (s_rbuf st ++ b) st), [ORead b])
    | _, _ => (st, [])
    end
  | EvReadErr =>
    match s_phase st with PSelect => tunnel_closed st | _ => (st, []) end
  | EvWrite n =>
    match s_phase st, s_wbuf st with
    | PSelect, _ :: _ =>
      let k := N.to_nat (N.min n (nlen (s_wbuf st))) in
      let st' := set_wbuf (skipn k (s_wbuf st)) st in
      match s_wbuf st', s_shut st with
      | [], true => (set_phase (PEnd FinRefused) st', [OWrote (firstn k (s_wbuf st)); OEnd FinRefused])
      | _, _ => (after_select st', [OWrote (firstn k (s_wbuf st))])
      end
    | _, _ => (st, [])
    end
  (* Err(_) => todo!() *)
  | EvWriteErr =>
    match s_phase st, s_wbuf st with
    | PSelect, _ :: _ => (set_phase (PEnd FinPanic) st, [OEnd FinPanic])
    | _, _ => (st, [])
    end
  end.

(* model only: the steps of a whole event list *)
Fixpoint run (c : creds) (st : sst) (es : list ev) : sst * list eff :=
  match es with
  | [] => (st, [])
  | e :: es' => let '(st1, o1) := step c st e in
                let '(st2, o2) := run c st1 es' in (st2, o1 ++ o2)
  end.
