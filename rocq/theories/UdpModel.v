(* UDP forwarding: src/reverse/stream.rs StreamUdp, driven by the loop in
   src/wmcore.rs:341-356.

   One listening socket; one task per session with a socket of its own.  Events are
   the scheduler: a poll of the listening side with what the sockets report, and one
   step of one task.  Bounded queues hold 10 items; a task that finds the queue to the
   listening side full waits, so its step is not possible (the state is unchanged).
   Simplified: the choice of the upstream address is part of the event (udp_target of
   TgtModel); whether PollSender::poll_reserve has a slot is part of the event, and
   it never has when the queue holds 10 items. *)
From Verif Require Import Base.
Open Scope N_scope.

(* a socket address, by number *)
Definition uaddr := N.
(* a datagram and its address *)
Definition item := (bytes * uaddr)%type.

(* stream.rs:139-149 InnerUdp: the task it feeds and the time of the last datagram *)
Record usess := USess { us_task : nat; us_last : N }.
(* a task: running, ended but the notice not yet sent, ended *)
Inductive tlife := Running | Ending | Ended.
(* t_chan: the queue from the listening side; t_sendq: send_cache *)
Record utask := UTask { t_origin : uaddr; t_remote : uaddr; t_chan : list bytes; t_sendq : list bytes; t_life : tlife }.
(* stream.rs:152-170: recv is the queue from the tasks, cache is cache_data, sendc is send_cache_data *)
Record ust := USt { u_recv : list item; u_cache : list item; u_sendc : list item; u_sess : list (uaddr * usess); u_tasks : list utask }.
(* stream.rs:173-185 *)
Definition udp0 : ust := USt [] [] [] [] [].

(* what can be seen on the sockets *)
Inductive uout :=
| OIn (a : uaddr) (d : bytes)          (* the listening socket received d from a *)
| OOpen (i : nat) (a r : uaddr)        (* session i opened for client a with upstream r *)
| OUp (i : nat) (a : uaddr) (d : bytes) (r : uaddr) (* session i, of client a, sent d to r *)
| OReply (i : nat) (a src : uaddr) (d : bytes) (* session i, of client a, received d from src *)
| OEnd (i : nat) (a : uaddr)           (* session i, of client a, is over *)
| OClient (d : bytes) (a : uaddr)      (* the listening socket sent d to a *)
| OLost (d : bytes) (a : uaddr).       (* the operating system refused to *)

Fixpoint upd {A} (l : list A) (i : nat) (x : A) : list A :=
  match l, i with
  | [], _ => []
  | _ :: l', O => x :: l'
  | y :: l', S i' => y :: upd l' i' x
  end.
(* stream.rs:174, 276: channel(10) *)
Definition chan_cap : nat := 10.
(* stream.rs:205: vec![0u8; 9096] *)
Definition reply_cap : nat := N.to_nat 9096.

Section Udp.
  (* stream.rs:277-280: client_timeout or 60 s *)
  Context (tmo : N).

  (* stream.rs:351-384 poll_write: take everything from the tasks, then send while the
     socket takes it (one flag per datagram, false is an error); the last flag of the
     result is false when the error ends the poll *)
  Fixpoint write_out (flags : list bool) (q : list item) : list uout * list item * bool :=
    match q, flags with
    | [], _ => ([], [], true)
    | _, [] => ([], q, true)
    | (d, a) :: q', true :: fl => let '(o, r, ok) := write_out fl q' in (OClient d a :: o, r, ok)
    | (d, a) :: q', false :: _ => ([OLost d a], q', false)
    end.
  (* stream.rs:324-349 poll_sender: hand each datagram to its session *)
  Fixpoint hand_out (flags : list bool) (q : list item) (se : list (uaddr * usess)) (ts : list utask) : list item * list utask :=
    match q with
    | [] => ([], ts)
    | (d, a) :: q' =>
      match lookup N.eqb a se with
      | None => hand_out flags q' se ts
      | Some s =>
        match nth_error ts (us_task s) with
        | None => hand_out flags q' se ts
        | Some t =>
          match t_life t with
          | Running =>
            if (hd false flags) && (length (t_chan t) <? chan_cap)%nat then
              hand_out (tl flags) q' se (upd ts (us_task s) (UTask (t_origin t) (t_remote t) (t_chan t ++ [d]) (t_sendq t) Running))
            else let (r, ts') := hand_out (tl flags) q' se ts in ((d, a) :: r, ts')
          | _ => hand_out flags q' se ts
          end
        end
      end
    end.
  (* stream.rs:253-306 process_data; up: the address chosen for a new session *)
  Definition process_data (now : N) (up : option uaddr) (d : bytes) (a : uaddr) (st : ust) : ust * list uout :=
    match lookup N.eqb a (u_sess st) with
    | Some s =>
      if now - us_last s <=? tmo then
        (USt (u_recv st) (u_cache st) (u_sendc st ++ [(d, a)]) (insert N.eqb a (USess (us_task s) now) (u_sess st)) (u_tasks st), [])
      else
        match up with
        | None => (USt (u_recv st) (u_cache st) (u_sendc st) (remove N.eqb a (u_sess st)) (u_tasks st), [])
        | Some r =>
          (USt (u_recv st) (u_cache st) (u_sendc st) (insert N.eqb a (USess (length (u_tasks st)) now) (remove N.eqb a (u_sess st)))
             (u_tasks st ++ [UTask a r [] [d] Running]), [OOpen (length (u_tasks st)) a r])
        end
    | None =>
      match up with
      | None => (st, [])
      | Some r =>
        (USt (u_recv st) (u_cache st) (u_sendc st) (insert N.eqb a (USess (length (u_tasks st)) now) (u_sess st))
           (u_tasks st ++ [UTask a r [] [d] Running]), [OOpen (length (u_tasks st)) a r])
      end
    end.

  Inductive uev :=
  (* a poll: flags of the sends, flags of the queue slots, the datagram waiting (its
     sender, the size of the read buffer), the time, the address for a new session *)
  | UPoll (wr rs : list bool) (rd : option (uaddr * bytes)) (cap : nat) (now : N) (up : option uaddr)
  | TTake (i : nat)                         (* task i takes from its queue *)
  | TSend (i : nat) (ok : bool)             (* task i sends upstream *)
  | TReply (i : nat) (src : uaddr) (d : bytes) (* a datagram arrives at the socket of task i *)
  | TStop (i : nat)                         (* task i ends: idle, error or closed queue *)
  | TNotice (i : nat).                      (* the ended task i tells the listening side *)

  (* stream.rs:390-397 poll_next followed by wmcore.rs:341-350 *)
  Definition udp_poll (wr rs : list bool) (rd : option (uaddr * bytes)) (cap : nat) (now : N) (up : option uaddr) (st : ust) : ust * list uout :=
    let '(o, cache, ok) := write_out wr (u_cache st ++ u_recv st) in
    if ok then
      let (sendc, ts) := hand_out rs (u_sendc st) (u_sess st) (u_tasks st) in
      let st := USt [] cache sendc (u_sess st) ts in
      match rd with
      | None => (st, o)
      | Some (a, d) =>
        let d := firstn cap d in
        let (st, o') := process_data now up d a st in (st, o ++ OIn a d :: o')
      end
    else (USt [] cache (u_sendc st) (u_sess st) (u_tasks st), o).
  (* one task replaced *)
  Definition set_task (i : nat) (t : utask) (st : ust) : ust := USt (u_recv st) (u_cache st) (u_sendc st) (u_sess st) (upd (u_tasks st) i t).
  (* Sender::send to the listening side *)
  Definition push_recv (x : item) (st : ust) : ust := USt (u_recv st ++ [x]) (u_cache st) (u_sendc st) (u_sess st) (u_tasks st).
  (* stream.rs:191-251 deal_udp_bind and 290-304 *)
  Definition udp_step (ev : uev) (st : ust) : ust * list uout :=
    match ev with
    | UPoll wr rs rd cap now up => udp_poll wr rs rd cap now up st
    | TTake i =>
      match nth_error (u_tasks st) i with
      | Some (UTask o r (d :: ch) sq Running) => (set_task i (UTask o r ch (sq ++ [d]) Running) st, [])
      | _ => (st, [])
      end
    | TSend i ok =>
      match nth_error (u_tasks st) i with
      | Some (UTask o r ch (d :: sq) Running) =>
        if ok then (set_task i (UTask o r ch sq Running) st, [OUp i o d r]) else (set_task i (UTask o r [] [] Ending) st, [])
      | _ => (st, [])
      end
    | TReply i src d =>
      match nth_error (u_tasks st) i with
      | Some (UTask o _ _ _ Running) =>
        if (length (u_recv st) <? chan_cap)%nat then (push_recv (firstn reply_cap d, o) st, [OReply i o src d]) else (st, [])
      | _ => (st, [])
      end
    | TStop i =>
      match nth_error (u_tasks st) i with
      | Some (UTask o r _ _ Running) => (set_task i (UTask o r [] [] Ending) st, [])
      | _ => (st, [])
      end
    | TNotice i =>
      match nth_error (u_tasks st) i with
      | Some (UTask o r ch sq Ending) =>
        if (length (u_recv st) <? chan_cap)%nat then (set_task i (UTask o r ch sq Ended) (push_recv ([], o) st), [OEnd i o]) else (st, [])
      | _ => (st, [])
      end
    end.
  (* model only: the steps of a whole event list *)
  Fixpoint udp_run (evs : list uev) (st : ust) : ust * list uout :=
    match evs with
    | [] => (st, [])
    | e :: evs' => let (st1, o1) := udp_step e st in let (st2, o2) := udp_run evs' st1 in (st2, o1 ++ o2)
    end.
End Udp.
