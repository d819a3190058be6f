(* What the control server promises, in terms of the requests made to it, the outcome of starting a generation and what
   is accepting connections. *)
From Verif Require Import Base CtlModel.
From Coq Require Import ZArith.
Open Scope N_scope.

(* The state and the outputs after a history, from the start of the process with configuration c. *)
Definition after (mode : cmode) (c : N) (evs : list cev) : cst := fst (crun mode evs (boot c)).
Definition outs (mode : cmode) (c : N) (evs : list cev) : list cout := snd (crun mode evs (boot c)).

Definition phase_of (i : nat) (s : cst) : option phase := option_map g_phase (nth_error (s_gens s) i).
Definition generations (s : cst) : nat := length (s_gens s).
Definition newest (s : cst) : nat := pred (generations s).

(* The process lives and some generation accepts connections. *)
Definition accepting (s : cst) : Prop := s_over s = false /\ exists i, phase_of i s = Some Run.

(* Nothing goes wrong and nobody asks to stop. *)
Definition calm (evs : list cev) : Prop :=
  forall e, In e evs -> match e with EReady _ p => p = PReady | EFail _ | EStop => False | _ => True end.

(* /stop was requested while generation i was the newest. *)
Definition stop_asked (mode : cmode) (c : N) (evs : list cev) (i : nat) : Prop :=
  exists e1 e2, evs = e1 ++ EStop :: e2 /\ generations (after mode c e1) = S i.

(* Generation i could not be started. *)
Definition start_failed (evs : list cev) (i : nat) : Prop := exists p, p <> PReady /\ In (EReady i p) evs.

(* Events that happen by themselves: no requests at the control port, no panic. *)
Definition internal (e : cev) : Prop :=
  match e with EReload _ | ECrash | EStop | ENow | EReady _ PPanic => False | _ => True end.
(* What goes on without anything failing: starting, handing over, closing, reporting, counting. *)
Definition progress (e : cev) : Prop :=
  match e with EReady _ PReady | ENotify _ | EClose _ | ESend _ | ETake | EDec | EStopGo => True | _ => False end.
(* Nothing of this is left to do. *)
Definition settled (mode : cmode) (s : cst) : Prop := forall e, progress e -> fst (cstep mode e s) = s.
(* Every event of evs2 does something. *)
Fixpoint busy (mode : cmode) (evs : list cev) (s : cst) : Prop :=
  match evs with [] => True | e :: evs' => fst (cstep mode e s) <> s /\ busy mode evs' (fst (cstep mode e s)) end.

Definition no_panic (evs : list cev) : Prop := forall i, ~ In (EReady i PPanic) evs.
Definition no_exit (evs : list cev) : Prop := forall i, ~ In (EReady i PExit) evs.

(* The newest generation has been told to stop or has stopped, or a /stop for it is waiting. *)
Definition ending (s : cst) : Prop :=
  s_hold s = Some (newest s) \/
  exists g, nth_error (s_gens s) (newest s) = Some g /\ (g_msg g = true \/ g_phase g = Leave \/ g_phase g = Gone).
