(* Several ports of one section: src/wmcore.rs:160-198 multi_tcp_listen_work and
   multi_udp_listen_work, called in every round of the loop of wmcore.rs:260-357.  In each
   round select_all of the futures crate asks the listeners in the order of the list,
   beginning with the first, and returns the first that is ready (select_all is not part of
   the repository; this is how futures 0.3 implements it). *)
From Verif Require Import Base UdpModel.
Open Scope N_scope.

(* element i of a list replaced by f of it *)
Fixpoint change_at {A} (i : nat) (f : A -> A) (l : list A) : list A :=
  match l, i with
  | [], _ => []
  | x :: l', O => f x :: l'
  | x :: l', S i' => x :: change_at i' f l'
  end.

(* ---- tcp ------------------------------------------------------------------------------- *)
(* the connections waiting at each listener, the oldest first *)
Definition ports := list (list N).
(* TArrive i c: connection c reaches port i; TRound bad: the branch is asked; bad says at
   which listeners accept fails this time (helper.rs:487-495) *)
Inductive tev := TArrive (i : nat) (c : N) | TRound (bad : list bool).
(* TTaken i c: connection c is given to the section with listener i; TError i: accept
   failed at listener i, which the loop passes over (wmcore.rs:294, 331) *)
Inductive tout := TTaken (i : nat) (c : N) | TError (i : nat).
(* select_all of wmcore.rs:164-169: the first listener that is ready; i is the number of the
   first of the list *)
Fixpoint first_ready (i : nat) (bad : list bool) (l : ports) : ports * option tout :=
  match l with
  | [] => ([], None)
  | q :: l' =>
    if hd false bad then (q :: l', Some (TError i))
    else match q with
         | c :: q' => (q' :: l', Some (TTaken i c))
         | [] => let (r, o) := first_ready (S i) (tl bad) l' in (q :: r, o)
         end
  end.
(* wmcore.rs:160-175 *)
Definition tstep (e : tev) (l : ports) : ports * list tout :=
  match e with
  | TArrive i c => (change_at i (fun q => q ++ [c]) l, [])
  | TRound bad => let (r, o) := first_ready 0 bad l in (r, match o with Some x => [x] | None => [] end)
  end.
(* model only: the steps of a whole event list *)
Fixpoint trun (es : list tev) (l : ports) : ports * list tout :=
  match es with
  | [] => (l, [])
  | e :: es' => let (l1, o1) := tstep e l in let (l2, o2) := trun es' l1 in (l2, o1 ++ o2)
  end.

(* ---- udp ------------------------------------------------------------------------------- *)
(* what the sockets of one listener report when it is asked *)
Record ask := Ask { k_wr : list bool; k_rs : list bool; k_rd : option (uaddr * bytes); k_cap : nat; k_now : N; k_up : option uaddr }.
(* MTask i e: a step of a task of listener i; MRound ks: the branch is asked, ks has one
   report for each listener *)
Inductive mev := MTask (i : nat) (e : uev) | MRound (ks : list ask).

Section MultiUdp.
  (* stream.rs:277-280: the client_timeout of the server of each listener *)
  Context (tmo : nat -> N).
  (* stream.rs:390-397 poll_next of one listener *)
  Definition poll_of (k : ask) : uev := UPoll (k_wr k) (k_rs k) (k_rd k) (k_cap k) (k_now k) (k_up k).
  (* stream.rs:308-322, 390-397: a listener is ready when a datagram is there or a write
     failed.  Simplified: reading does not fail. *)
  Definition ready_now (k : ask) (st : ust) : bool :=
    let '(_, _, ok) := write_out (k_wr k) (u_cache st ++ u_recv st) in
    if ok then match k_rd k with Some _ => true | None => false end else true.
  (* wmcore.rs:177-198 with 340-350: the listeners are polled up to the first that is ready,
     and its datagram is dealt with *)
  Fixpoint ask_all (i : nat) (ks : list ask) (l : list ust) : list ust * list (nat * uout) :=
    match l, ks with
    | st :: l', k :: ks' =>
      let (st', o) := udp_step (tmo i) (poll_of k) st in
      if ready_now k st then (st' :: l', map (pair i) o)
      else let (r, o') := ask_all (S i) ks' l' in (st' :: r, map (pair i) o ++ o')
    | _, _ => (l, [])
    end.
  (* a step of the section; the polls of listeners are in MRound only *)
  Definition mstep (e : mev) (l : list ust) : list ust * list (nat * uout) :=
    match e with
    | MTask i (UPoll _ _ _ _ _ _) => (l, [])
    | MTask i e => match nth_error l i with
                   | Some st => let (st', o) := udp_step (tmo i) e st in (change_at i (fun _ => st') l, map (pair i) o)
                   | None => (l, [])
                   end
    | MRound ks => ask_all 0 ks l
    end.
  (* model only: the steps of a whole event list *)
  Fixpoint mrun (es : list mev) (l : list ust) : list ust * list (nat * uout) :=
    match es with
    | [] => (l, [])
    | e :: es' => let (l1, o1) := mstep e l in let (l2, o2) := mrun es' l1 in (l2, o1 ++ o2)
    end.
End MultiUdp.
