(* The lock around a TCP stream connection: src/reverse/stream.rs:93-136, spawned for
   every accepted connection by src/wmcore.rs:330-339 with one and the same mutex. *)
From Verif Require Import Base.
Open Scope N_scope.

(* holder: the connection whose task holds the lock; the others wait in the order in
   which they asked (a tokio mutex is fair).  Connections are numbers. *)
Record sq := Sq { holder : option N; waiting : list N }.
(* model only: nobody holds the lock *)
Definition sq_init := Sq None [].
(* What happens: a connection is accepted (its task runs up to the lock); bytes of a
   client are ready to be read; the relay of a connection ends, for whatever reason (a side closed,
   an error, the backend cannot be reached). *)
Inductive sev := SAccept (c : N) | SBytes (c : N) (b : list N) | SFinish (c : N).
(* Bytes ready for a connection whose task does not hold the lock stay in its
   socket; they are ready again in a later event. *)
(* Effects: the backend of a connection is contacted; bytes are passed to it; the
   connection is dropped. *)
Inductive sout := SConnect (c : N) | SPass (c : N) (b : list N) | SDrop (c : N).

(* src/reverse/stream.rs:100 takes the lock; the guard value lives until the end of
   the function, across connect and copy_bidirectional (125-126).  A finish of a task
   that is not past the lock cannot happen: nothing polls its socket. *)
Definition sq_step (q : sq) (e : sev) : sq * list sout :=
  match e with
  | SAccept c =>
    match holder q with
    | None => (Sq (Some c) (waiting q), [SConnect c])
    | Some _ => (Sq (holder q) (waiting q ++ [c]), [])
    end
  | SBytes c b =>
    match holder q with
    | Some h => if h =? c then (q, [SPass c b]) else (q, [])
    | None => (q, [])
    end
  | SFinish c =>
    match holder q with
    | Some h =>
      if h =? c then
        match waiting q with
        | [] => (Sq None [], [SDrop c])
        | n :: w => (Sq (Some n) w, [SDrop c; SConnect n])
        end
      else (q, [])
    | None => (q, [])
    end
  end.
(* model only: the steps of a whole event list *)
Fixpoint sq_run (q : sq) (es : list sev) : sq * list sout :=
  match es with
  | [] => (q, [])
  | e :: es' => let (q1, o1) := sq_step q e in let (q2, o2) := sq_run q1 es' in (q2, o1 ++ o2)
  end.
