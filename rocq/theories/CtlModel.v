(* Model of the control server and of the life of the server generations it starts:
   src/control/server.rs (ControlServer) and src/wmcore.rs start_serve / run_serve as far as they
   concern starting, handing over and ending.  What a running generation serves is not modelled here.
   The event list is the scheduler: it interleaves the generations, the control loop and the HTTP handlers of the
   control port in every order.  An event that is not enabled leaves the state as it is. *)
From Verif Require Import Base.
From Coq Require Import ZArith.
Open Scope N_scope.

(* One generation: the task spawned by inner_start_server (control/server.rs 87-96).
   Prep: in ready_serve (wmcore.rs 214-250).  Note: ready, about to send the close signal to the generation before
   (run_serve, wmcore.rs 257-259).  Run: in the accept loop (wmcore.rs 261-363).  Leave: start_serve has returned,
   the task is about to send its own end to the control channel (control/server.rs 95).  Gone: task finished.
   Lost: the task panicked, so nothing was sent. *)
Inductive phase := Prep | Note | Run | Leave | Gone | Lost.
(* g_prev: the close sender of an earlier generation that was handed to this one (control/server.rs 84, 91).
   g_msg: a message lies in this generation's close channel (control/server.rs 83, capacity 1).
   g_conf: the configuration the generation was started with. *)
Record gen := Gen { g_phase : phase; g_prev : option nat; g_msg : bool; g_conf : N }.

(* How start_control ends up (control/server.rs 155-172): serving the control port, control disabled, or port not bindable. *)
Inductive cmode := Serving | Disabled | NoPort.

(* ControlServer (control/server.rs 27-39) plus: s_sig, a message in the control channel (capacity 1, control/server.rs 57);
   s_taken, the loop has received a signal and is about to lock the control to count it (control/server.rs 196-197);
   s_hold, a /stop handler waits, with the lock held, for room in a generation's close channel (control/server.rs 119-120);
   s_over, the control has returned, so main returns and the process ends (main.rs 19-21). *)
Record cst := CSt { s_gens : list gen; s_cur : option nat; s_count : Z; s_sig : bool; s_taken : bool; s_hold : option nat; s_over : bool; s_opt : N }.

(* What ready_serve came to: ready, an error, a panic, or process::exit (option.rs 560, 568). *)
Inductive prep := PReady | PFail | PPanic | PExit.

Inductive cev :=
| EReady (i : nat) (p : prep)  (* ready_serve of generation i returns *)
| ENotify (i : nat)            (* generation i sends the close signal to its predecessor and enters its loop *)
| EClose (i : nat)             (* the loop of generation i polls its close channel *)
| EFail (i : nat)              (* the loop of generation i returns an error (local_addr()? in wmcore.rs 264 and following) *)
| ESend (i : nat)              (* generation i sends its end to the control channel *)
| ETake                        (* the control loop receives a signal *)
| EDec                         (* the control loop counts it *)
| EReload (c : option N)       (* GET /reload; c is what reading the configuration gives *)
| ECrash                       (* GET /reload, the configuration can be read and its logs cannot be set up: a panic *)
| EStop                        (* GET /stop *)
| EStopGo                      (* a waiting /stop handler is polled again *)
| ENow.                        (* GET /now *)

Inductive cout :=
| OStart (i : nat) (c : N)     (* generation i was started with configuration c *)
| OUp (i : nat)                (* generation i has started to accept *)
| ODown (i : nat)              (* generation i has stopped accepting *)
| OReloaded                    (* the answer of /reload: it was loaded *)
| OStopped                     (* the answer of /stop *)
| OConf (c : N)                (* the answer of /now *)
| OExit.                       (* the process has ended *)

Fixpoint setg (l : list gen) (i : nat) (g : gen) : list gen :=
  match l, i with [], _ => [] | _ :: l', O => g :: l' | x :: l', S i' => x :: setg l' i' g end.

(* record update *)
Definition with_gens gs s := CSt gs (s_cur s) (s_count s) (s_sig s) (s_taken s) (s_hold s) (s_over s) (s_opt s).
(* record update *)
Definition with_hold h s := CSt (s_gens s) (s_cur s) (s_count s) (s_sig s) (s_taken s) h (s_over s) (s_opt s).
(* the control loop has returned: the process ends (main.rs 19-21) *)
Definition over s := CSt (s_gens s) (s_cur s) (s_count s) (s_sig s) (s_taken s) (s_hold s) true (s_opt s).
(* one generation replaced *)
Definition put (i : nat) (g : gen) s := with_gens (setg (s_gens s) i g) s.
(* one generation at another point *)
Definition move (ph : phase) (g : gen) : gen := Gen ph (g_prev g) (g_msg g) (g_conf g).
(* a message put into its close channel (control/server.rs 83, 119) *)
Definition told (g : gen) : gen := Gen (g_phase g) (g_prev g) true (g_conf g).

(* The receiver of a close channel lives in start_serve / run_serve, so until they return (wmcore.rs 253, 366). *)
Definition listens (ph : phase) : bool := match ph with Prep | Note | Run => true | _ => false end.
(* The sender handed on lives until it has been used (wmcore.rs 257-259) or start_serve has returned. *)
Definition keeps (ph : phase) : bool := match ph with Prep | Note => true | _ => false end.
(* Is there still a sender for generation i's close channel? *)
Definition has_sender (i : nat) (s : cst) : bool :=
  match s_cur s with Some j => Nat.eqb i j | None => false end
  || existsb (fun g => keeps (g_phase g) && match g_prev g with Some j => Nat.eqb i j | None => false end) (s_gens s).

(* inner_start_server, control/server.rs 81-99 *)
Definition start (c : N) (s : cst) : cst * list cout :=
  (CSt (s_gens s ++ [Gen Prep (s_cur s) false c]) (Some (length (s_gens s))) (s_count s + 1)%Z (s_sig s) (s_taken s) (s_hold s) (s_over s) (s_opt s),
   [OStart (length (s_gens s)) c]).

(* Sending on a close channel of capacity 1 (mpsc send): an error if the receiver is gone, otherwise stored if there is
   room, otherwise the sender waits (None). *)
Definition send_close (i : nat) (s : cst) : option cst :=
  match nth_error (s_gens s) i with
  | None => Some s
  | Some g => if negb (listens (g_phase g)) then Some s else if g_msg g then None else Some (put i (told g) s)
  end.

Section Ctl.
  Context (mode : cmode).

  Definition cstep (e : cev) (s : cst) : cst * list cout :=
    if s_over s then (s, []) else
    match e with
    | EReady i p =>   (* wmcore.rs 371-372; control/server.rs 90-93 *)
      match nth_error (s_gens s) i with
      | Some g =>
        match g_phase g with
        | Prep => match p with
                  | PReady => (put i (move Note g) s, [])
                  | PFail => (put i (move Leave g) s, [])
                  | PPanic => (put i (move Lost g) s, [])
                  | PExit => (over s, [OExit])
                  end
        | _ => (s, [])
        end
      | None => (s, [])
      end
    | ENotify i =>    (* wmcore.rs 257-259 *)
      match nth_error (s_gens s) i with
      | Some g =>
        match g_phase g with
        | Note =>
          match match g_prev g with Some j => send_close j s | None => Some s end with
          | Some s' => (put i (move Run g) s', [OUp i])
          | None => (s, [])
          end
        | _ => (s, [])
        end
      | None => (s, [])
      end
    | EClose i =>     (* wmcore.rs 356-359: a message and a closed channel are treated alike *)
      match nth_error (s_gens s) i with
      | Some g =>
        match g_phase g with
        | Run => if g_msg g || negb (has_sender i s) then (put i (move Leave g) s, [ODown i]) else (s, [])
        | _ => (s, [])
        end
      | None => (s, [])
      end
    | EFail i =>
      match nth_error (s_gens s) i with
      | Some g => match g_phase g with Run => (put i (move Leave g) s, [ODown i]) | _ => (s, []) end
      | None => (s, [])
      end
    | ESend i =>      (* control/server.rs 95: capacity 1, so it waits while an earlier signal is still there *)
      match nth_error (s_gens s) i with
      | Some g =>
        match g_phase g with
        | Leave => if s_sig s then (s, [])
                   else (CSt (setg (s_gens s) i (move Gone g)) (s_cur s) (s_count s) true (s_taken s) (s_hold s) (s_over s) (s_opt s), [])
        | _ => (s, [])
        end
      | None => (s, [])
      end
    | ETake =>        (* control/server.rs 159-161 with control disabled; 196 otherwise *)
      match mode with
      | NoPort => (s, [])
      | Disabled => if s_sig s then (over s, [OExit]) else (s, [])
      | Serving => if s_sig s && negb (s_taken s)
                   then (CSt (s_gens s) (s_cur s) (s_count s) false true (s_hold s) (s_over s) (s_opt s), []) else (s, [])
      end
    | EDec =>         (* control/server.rs 197-203 *)
      match mode, s_hold s with
      | Serving, None =>
        if s_taken s then
          let s' := CSt (s_gens s) (s_cur s) (s_count s - 1)%Z (s_sig s) false (s_hold s) (s_over s) (s_opt s) in
          if (s_count s' <=? 0)%Z then (over s', [OExit]) else (s', [])
        else (s, [])
      | _, _ => (s, [])
      end
    | EReload c =>    (* control/server.rs 107-114, 74-79: the result is ignored and the answer is the same *)
      match mode, s_hold s with
      | Serving, None =>
        match c with
        | Some n => let (s', o) := start n s in (s', o ++ [OReloaded])
        | None => (s, [OReloaded])
        end
      | _, _ => (s, [])
      end
    | ECrash => (s, [])  (* control/server.rs 76: helper.rs 190, 213; the lock is given back, nobody answers *)
    | EStop =>        (* control/server.rs 115-122 *)
      match mode, s_hold s with
      | Serving, None =>
        match s_cur s with
        | Some i => match send_close i s with Some s' => (s', [OStopped]) | None => (with_hold (Some i) s, []) end
        | None => (s, [OStopped])
        end
      | _, _ => (s, [])
      end
    | EStopGo =>
      match s_hold s with
      | Some i => match send_close i s with Some s' => (with_hold None s', [OStopped]) | None => (s, []) end
      | None => (s, [])
      end
    | ENow =>         (* control/server.rs 123-131 *)
      match mode, s_hold s with
      | Serving, None => (s, [OConf (s_opt s)])
      | _, _ => (s, [])
      end
    end.

  (* model only: the steps of a whole event list *)
  Fixpoint crun (evs : list cev) (s : cst) : cst * list cout :=
    match evs with
    | [] => (s, [])
    | e :: evs' => let (s1, o1) := cstep e s in let (s2, o2) := crun evs' s1 in (s2, o1 ++ o2)
    end.
End Ctl.

(* ControlServer::new and start_serve, control/server.rs 55-72: one generation with the configuration of the command line. *)
Definition boot (c : N) : cst := fst (start c (CSt [] None 0%Z false false None false c)).
