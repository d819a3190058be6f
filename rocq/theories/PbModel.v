(* One active check: src/check/active.rs:43-106, over the table of HealthModel. *)
From Coq Require Import String.
From Verif Require Import Base Text TextOps ConfModel HealthModel.
Open Scope N_scope.

(* What connect_http (check/active.rs:43-59) gives: the status of the HTTP answer, or an
   error (no connection, no answer, not an answer of HTTP).  The client is wenmeng's; what
   it meets at the backend is given with each check, with the time it takes; None: it
   never ends. *)
Inductive answer := Status (s : N) | NoAnswer.
(* see above *)
Definition outcome := option (N * answer).
(* eq_ignore_ascii_case("http"), check/active.rs:65 *)
Definition is_http (method : text) : bool := leqb (map lower method) (txt "http").
(* check/active.rs:66, 86: the time limit *)
Definition time_limit (method : text) (every : N) : N := if is_http method then every + 3 * second else 3 * second.
(* StatusCode::is_server_error, check/active.rs:69 *)
Definition server_error (s : N) : bool := (500 <=? s) && (s <? 600).
(* check/active.rs:65-104: which of add_rise_up (true) and add_fall_down (false) is called;
   tokio's timeout looks at the future before the clock *)
Definition verdict (method : text) (every : N) (o : outcome) : bool :=
  match o with
  | Some (took, r) =>
    if took <=? time_limit method every then
      match r with
      | Status s => if is_http method then negb (server_error s) else true
      | NoAnswer => false
      end
    else false
  | None => false
  end.

(* the table, and the checks under way: number, address and what they will report *)
Record pst := Pst { p_h : hcheck; p_open : list (N * (addr * bool)) }.
(* PCheck: do_check is called for an address, with the outcome its request will have; PDone:
   the check of that number is over; PTraffic: forwarding reports a connection that failed
   or was made (health.rs:206-243, modelled in HealthModel) *)
Inductive pev := PCheck (i : N) (a : addr) (method : text) (every : N) (o : outcome) (now : N) | PDone (i : N) (now : N) | PTraffic (good : bool) (a : addr) (now : N).
(* what can be seen: a check sends its request, a check is not made, a result is counted *)
Inductive pout := PSent (i : N) (a : addr) (method : text) (every : N) (o : outcome) (now : N) | PSkip (a : addr) (every : N) (now : N) | PCount (from : option N) (a : addr) (good : bool) (now : N).

(* health.rs:154-203 *)
Definition count (good : bool) (a : addr) (now : N) (h : hcheck) : hcheck := if good then add_rise_up a now h else add_fall_down a now h.
(* check/active.rs:60-106 do_check, cut at the await *)
Definition pstep (s : pst) (e : pev) : pst * list pout :=
  match e with
  | PCheck i a m every o now =>
    let (can, h) := check_can_request a every now (p_h s) in
    if can then (Pst h ((i, (a, verdict m every o)) :: p_open s), [PSent i a m every o now])
    else (Pst h (p_open s), [PSkip a every now])
  | PDone i now =>
    match lookup N.eqb i (p_open s) with
    | None => (s, [])
    | Some (a, good) => (Pst (count good a now (p_h s)) (remove N.eqb i (p_open s)), [PCount (Some i) a good now])
    end
  | PTraffic good a now => (Pst (count good a now (p_h s)) (p_open s), [PCount None a good now])
  end.
(* model only: the steps of a whole event list *)
Fixpoint prun (s : pst) (es : list pev) : pst * list pout :=
  match es with
  | [] => (s, [])
  | e :: es' => let (s1, o1) := pstep s e in let (s2, o2) := prun s1 es' in (s2, o1 ++ o2)
  end.
(* health.rs:76-83: the table at the start *)
Definition pst0 (timeout max min : N) : pst := Pst (hcheck_new timeout max min) [].
