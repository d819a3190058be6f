(* The two ends of a tunnel stream: src/streams/virtual_stream.rs (a tunnel
   stream used as a byte stream) and src/streams/trans_stream.rs (a bridge
   between a socket and a tunnel stream). *)
From Verif Require Import Base ProtModel.
Open Scope N_scope.

(* ---- VirtualStream ------------------------------------------------------- *)
Record vst := VSt {
  v_id : N;
  v_chan : list frame;        (* frames queued in `receiver` *)
  v_hung : bool;              (* all senders of that channel are gone *)
  v_read : bytes;             (* self.read *)
  v_write : bytes             (* self.write *)
}.

(* What poll_reserve on the outgoing channel answers *)
Inductive room := RoomNo | RoomYes | RoomClosed.

Inductive vev :=
| VPush (f : frame)           (* the tunnel loop queues a frame *)
| VHang                       (* the tunnel loop drops the sender *)
| VRead (n : N) (budget : nat)  (* poll_read with n bytes of room; `budget` is how
                                 often poll_recv may answer before tokio's
                                 cooperative budget makes it Pending *)
| VWrite (b : bytes) (r : room)
| VFlush (r : room)
| VShutdown                   (* the owner shuts the stream down *)
| VDrop.                      (* the owner drops the stream: no Drop is implemented.
                                 Later calls cannot happen; later frames are kept
                                 in a queue nobody reads (a simplification). *)

Inductive veff :=
| WGot (b : bytes)            (* poll_read: Ready, these bytes *)
| WEof                        (* poll_read: Ready without touching the buffer *)
| WPend                       (* poll_read: Pending *)
| WAccept (b : bytes)         (* poll_write: Ready(len) *)
| WRetry (b : bytes)          (* poll_write: Pending, caller must call again *)
| WSent (f : frame)           (* a frame queued for the tunnel *)
| WFlushed | WFlushPend
| WShut.                      (* poll_shutdown: Ready *)

(* record update *)
Definition set_chan q st := VSt (v_id st) q (v_hung st) (v_read st) (v_write st).
(* record update *)
Definition set_read b st := VSt (v_id st) (v_chan st) (v_hung st) b (v_write st).
(* record update *)
Definition set_write b st := VSt (v_id st) (v_chan st) (v_hung st) (v_read st) b.

(* virtual_stream.rs:87-92: hand over what is buffered *)
Definition give (n : N) (q : list frame) (buf : bytes) : list frame * bytes * veff :=
  let k := N.to_nat (N.min (nlen buf) n) in
  (q, skipn k buf, WGot (firstn k buf)).

(* virtual_stream.rs:57-95 poll_read: recursion on the queue, each turn takes
   one frame.  Result: remaining queue, read buffer, outcome. *)
Fixpoint vpoll_read (q : list frame) (hung : bool) (buf : bytes) (n : N) (budget : nat)
  : list frame * bytes * veff :=
  match budget with
  | O => match buf with [] => (q, buf, WPend) | _ => give n q buf end
  | S budget' =>
    match q with
    | [] => if hung then ([], buf, WEof)
            else match buf with [] => ([], buf, WPend) | _ => give n [] buf end
    | f :: q' =>
      match f with
      | FClose _ _ | FCreate _ _ => (q', buf, WEof)
      | FData _ d =>
        match buf ++ d with
        | [] => vpoll_read q' hung [] n budget'
        | buf' => give n q' buf'
        end
      | _ => match buf with [] => vpoll_read q' hung [] n budget' | _ => give n q' buf end
      end
    end
  end.

(* virtual_stream.rs:102-117 poll_write: the bytes go into the buffer before the
   room is checked; RoomClosed also answers Pending. *)
Definition vpoll_write (b : bytes) (r : room) (st : vst) : vst * list veff :=
  let w := v_write st ++ b in
  match r with
  | RoomNo | RoomClosed => (set_write w st, [WRetry b])
  | RoomYes => (set_write [] st, [WSent (FData (v_id st) w); WAccept b])
  end.

(* virtual_stream.rs:119-134 poll_flush *)
Definition vpoll_flush (r : room) (st : vst) : vst * list veff :=
  match v_write st with
  | [] => (st, [WFlushed])
  | w => match r with
         | RoomNo | RoomClosed => (st, [WFlushPend])
         | RoomYes => (set_write [] st, [WSent (FData (v_id st) w); WFlushed])
         end
  end.

(* virtual_stream.rs:136-141 poll_shutdown *)
Definition vpoll_shutdown (st : vst) : vst * list veff := (st, [WShut]).

(* virtual_stream.rs:57-142: one call, or one frame from outside *)
Definition vstep (st : vst) (e : vev) : vst * list veff :=
  match e with
  | VPush f => if v_hung st then (st, []) else (set_chan (v_chan st ++ [f]) st, [])
  | VHang => (VSt (v_id st) (v_chan st) true (v_read st) (v_write st), [])
  | VRead n budget =>
    let '(q, buf, o) := vpoll_read (v_chan st) (v_hung st) (v_read st) n budget in
    (set_read buf (set_chan q st), [o])
  | VWrite b r => vpoll_write b r st
  | VFlush r => vpoll_flush r st
  | VShutdown => vpoll_shutdown st
  | VDrop => (st, [])
  end.

(* model only: the steps of a whole event list *)
Fixpoint vrun (st : vst) (es : list vev) : vst * list veff :=
  match es with
  | [] => (st, [])
  | e :: es' => let '(st1, o1) := vstep st e in
                let '(st2, o2) := vrun st1 es' in (st2, o1 ++ o2)
  end.
(* virtual_stream.rs:43-51 *)
Definition v_init (id : N) : vst := VSt id [] false [] [].

(* ---- TransStream --------------------------------------------------------- *)
Inductive tend := TOk | TFail.               (* result of inner_copy_wait *)
Inductive tphase := TRun | TClosing (r : tend) | TDone (r : tend).
Record tst := TSt {
  t_id : N;
  t_read : bytes;              (* self.read *)
  t_write : bytes;             (* self.write *)
  t_link : list frame;         (* frames waiting for room in the channel *)
  t_phase : tphase
}.

Inductive tev :=
| TLoopTop                     (* trans_stream.rs:82-86, top of the loop *)
| TSockData (b : bytes)        (* reader.read gave bytes *)
| TSockEof | TSockErr
| TWrote (n : N) | TWriteErr   (* writer.write *)
| TFrame (f : frame)           (* out_receiver.recv *)
| THung                        (* out_receiver.recv = None *)
| TRoom (ok : bool)            (* in_sender.reserve *)
| TCloseSend (ok : bool).      (* copy_wait: sender.send(close) *)

Inductive teff :=
| XRead (b : bytes) | XWrote (b : bytes) | XRecv (f : frame) | XSent (f : frame)
| XCloseFailed | XEnd (r : tend).

(* record update *)
Definition tset r w l p st := TSt (t_id st) r w l p.

(* trans_stream.rs:82-86: done before every select!; folded into each step. *)
Definition loop_top (st : tst) : tst :=
  match t_read st with
  | [] => st
  | b => tset [] (t_write st) (t_link st ++ [FData (t_id st) b]) (t_phase st) st
  end.

(* trans_stream.rs:76-136 inner_copy_wait, one select! branch, and
   trans_stream.rs:138-144 copy_wait.  An event that is not enabled (guards at
   lines 97 and 124) does nothing. *)
Definition tstep (st0 : tst) (e : tev) : tst * list teff :=
  match t_phase st0 with
  | TRun =>
    let st := loop_top st0 in
    let fin r := (tset (t_read st) (t_write st) (t_link st) (TClosing r) st, [XEnd r]) in
    match e with
    | TLoopTop => (st, [])
    | TSockData [] | TSockEof => fin TOk
    | TSockData b =>
      (tset (t_read st ++ b) (t_write st) (t_link st) TRun st, [XRead b])
    | TSockErr => fin TFail
    | TWrote n =>
      match t_write st with
      | [] => (st, [])
      | w => let k := N.to_nat (N.min n (nlen w)) in
             (tset (t_read st) (skipn k w) (t_link st) TRun st, [XWrote (firstn k w)])
      end
    | TWriteErr => match t_write st with [] => (st, []) | _ => fin TFail end
    | TFrame f =>
      match f with
      | FClose _ _ | FCreate _ _ =>
        (tset (t_read st) (t_write st) (t_link st) (TClosing TOk) st, [XRecv f; XEnd TOk])
      | FData _ d => (tset (t_read st) (t_write st ++ d) (t_link st) TRun st, [XRecv f])
      | _ => (st, [XRecv f])
      end
    | THung => fin TFail
    | TRoom ok =>
      match t_link st with
      | [] => (st, [])
      | f :: l => if ok then (tset (t_read st) (t_write st) l TRun st, [XSent f]) else fin TFail
      end
    | TCloseSend _ => (st, [])
    end
  | TClosing r =>
    match e with
    | TCloseSend ok =>
      (tset (t_read st0) (t_write st0) (t_link st0) (TDone r) st0,
       [if ok then XSent (FClose (t_id st0) []) else XCloseFailed])
    | _ => (st0, [])
    end
  | TDone _ => (st0, [])
  end.

(* model only: the steps of a whole event list *)
Fixpoint trun (st : tst) (es : list tev) : tst * list teff :=
  match es with
  | [] => (st, [])
  | e :: es' => let '(st1, o1) := tstep st e in
                let '(st2, o2) := trun st1 es' in (st2, o1 ++ o2)
  end.
(* trans_stream.rs:52-66; `pre` is what reader_mut() put there beforehand *)
Definition t_init (id : N) (pre : bytes) : tst := TSt id pre [] [] TRun.
