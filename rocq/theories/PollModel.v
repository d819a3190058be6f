(* One end of a tunnel, poll by poll: the four branches of the biased select of
   src/streams/center_server.rs:114-164 and src/streams/center_client.rs:145-188, with
   the two queues that other tasks fill between any two of its steps. *)
From Verif Require Import Base.
Open Scope N_scope.

(* what is put on the wire for stream id: its creation, one piece of data, its close *)
Inductive fr := FCreate (id : N) | FData (id : N) (x : N) | FClose (id : N).

(* which branch is polled next: receiver_work.recv(), receiver.recv(), reader.read(),
   writer.write() *)
Inductive poll := AtWork | AtOut | AtRead | AtWrite.

(* q_work: the creates in the channel of capacity 10; q_out: the frames in the channel of
   capacity 100; q_buf: write_buf, frame by frame; q_in: what the peer has sent and has
   not been read; q_owner: the CenterServer (or CenterClient) is there; q_tasks: the
   visitor tasks, each holds a sender of both channels (trans/tcp.rs:44-76,
   trans/http.rs:126-157); q_made: the visitor tasks that have sent their create *)
Record tun := Tun { q_work : list N; q_out : list fr; q_buf : list fr; q_in : list N;
                    q_owner : bool; q_tasks : list N; q_made : list N; q_at : poll }.
(* model only: the state when the loop starts *)
Definition tun0 : tun := Tun [] [] [] [] true [] [] AtWork.

Inductive tev :=
| TVisitor (id : N)        (* the accept loop starts a visitor task: center_server.rs:258-334 *)
| TCreate (id : N)         (* the task sends its create: trans/tcp.rs:70-72, trans/http.rs:103-106 *)
| TData (id : N) (x : N)   (* and then data: trans_stream.rs:126-135, virtual_stream.rs:104-117 *)
| TEnd (id : N)            (* the task ends, after its close: trans_stream.rs:141-147 *)
| TServed (f : fr)         (* a stream the peer created sends a frame *)
| TArrive (x : N)          (* the peer sends something *)
| TReload                  (* the owner goes: control/server.rs:80-99, start_serve returns *)
| TPoll (n : nat).         (* the loop polls the next branch; the socket takes n frames *)
(* OQueued: the send of a task has succeeded *)
Inductive tout := ORead (x : N) | OWrote (f : fr) | OQueued (f : fr).

(* list membership *)
Definition memN (x : N) (l : list N) : bool := existsb (N.eqb x) l.
(* channel(10): center_server.rs:62, center_client.rs:73 *)
Definition work_room : nat := 10.
(* channel(100): center_server.rs:61, center_client.rs:72 *)
Definition out_room : nat := 100.

(* receiver_work.recv() gives None when no sender of that channel is left; its result is
   ignored (center_server.rs:119-124).  The channel of frames is never closed: the loop
   holds a sender of it (center_server.rs:99).
   Simplified: frames are written whole; the cooperative budget of tokio, which makes
   all four branches pending at once, is left out; a poll in which no branch is ready
   starts over. *)
Definition ppoll (n : nat) (s : tun) : tun * list tout :=
  match q_at s with
  | AtWork =>
    match q_work s with
    | id :: w => (Tun w (q_out s) (q_buf s ++ [FCreate id]) (q_in s) (q_owner s) (q_tasks s) (q_made s) AtWork, [])
    | [] => if negb (q_owner s) && (length (q_tasks s) =? 0)%nat
            then (s, [])
            else (Tun [] (q_out s) (q_buf s) (q_in s) (q_owner s) (q_tasks s) (q_made s) AtOut, [])
    end
  | AtOut =>
    match q_out s with
    | f :: o => (Tun (q_work s) o (q_buf s ++ [f]) (q_in s) (q_owner s) (q_tasks s) (q_made s) AtWork, [])
    | [] => (Tun (q_work s) [] (q_buf s) (q_in s) (q_owner s) (q_tasks s) (q_made s) AtRead, [])
    end
  | AtRead =>
    match q_in s with
    | x :: i => (Tun (q_work s) (q_out s) (q_buf s) i (q_owner s) (q_tasks s) (q_made s) AtWork, [ORead x])
    | [] => (Tun (q_work s) (q_out s) (q_buf s) [] (q_owner s) (q_tasks s) (q_made s) AtWrite, [])
    end
  | AtWrite =>
    (Tun (q_work s) (q_out s) (skipn n (q_buf s)) (q_in s) (q_owner s) (q_tasks s) (q_made s) AtWork, map OWrote (firstn n (q_buf s)))
  end.

Section Poll.
(* the stream numbers this end gives: the even ones or the odd ones (IdModel) *)
Context (mine : N -> bool).
(* an event that is not possible changes nothing *)
Definition pstep (s : tun) (e : tev) : tun * list tout :=
  match e with
  | TVisitor id =>
    if mine id && q_owner s && negb (memN id (q_tasks s)) && negb (memN id (q_made s))
    then (Tun (q_work s) (q_out s) (q_buf s) (q_in s) (q_owner s) (id :: q_tasks s) (q_made s) (q_at s), []) else (s, [])
  | TCreate id =>
    if memN id (q_tasks s) && negb (memN id (q_made s)) && (length (q_work s) <? work_room)%nat
    then (Tun (q_work s ++ [id]) (q_out s) (q_buf s) (q_in s) (q_owner s) (q_tasks s) (id :: q_made s) (q_at s), [OQueued (FCreate id)]) else (s, [])
  | TData id x =>
    if memN id (q_tasks s) && memN id (q_made s) && (length (q_out s) <? out_room)%nat
    then (Tun (q_work s) (q_out s ++ [FData id x]) (q_buf s) (q_in s) (q_owner s) (q_tasks s) (q_made s) (q_at s), [OQueued (FData id x)]) else (s, [])
  | TEnd id =>
    if memN id (q_tasks s) then
      if memN id (q_made s) then
        if (length (q_out s) <? out_room)%nat
        then (Tun (q_work s) (q_out s ++ [FClose id]) (q_buf s) (q_in s) (q_owner s) (filter (fun y => negb (y =? id)) (q_tasks s)) (q_made s) (q_at s), [OQueued (FClose id)])
        else (s, [])
      else (Tun (q_work s) (q_out s) (q_buf s) (q_in s) (q_owner s) (filter (fun y => negb (y =? id)) (q_tasks s)) (q_made s) (q_at s), [])
    else (s, [])
  | TServed f =>
    match f with
    | FCreate _ => (s, [])
    | FData id _ | FClose id =>
      if negb (mine id) && (length (q_out s) <? out_room)%nat
      then (Tun (q_work s) (q_out s ++ [f]) (q_buf s) (q_in s) (q_owner s) (q_tasks s) (q_made s) (q_at s), [OQueued f]) else (s, [])
    end
  | TArrive x => (Tun (q_work s) (q_out s) (q_buf s) (q_in s ++ [x]) (q_owner s) (q_tasks s) (q_made s) (q_at s), [])
  | TReload => (Tun (q_work s) (q_out s) (q_buf s) (q_in s) false (q_tasks s) (q_made s) (q_at s), [])
  | TPoll n => ppoll n s
  end.
(* model only: the steps of a whole event list *)
Fixpoint prun (s : tun) (es : list tev) : tun * list tout :=
  match es with
  | [] => (s, [])
  | e :: es' => let (s1, o1) := pstep s e in let (s2, o2) := prun s1 es' in (s2, o1 ++ o2)
  end.
End Poll.
