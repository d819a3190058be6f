(* Active health checks: src/option.rs:705-757, src/check/active.rs.  The server computes
   the list and makes the checker, but the line that would start it is commented out
   (src/wmcore.rs:200-207); the checker is modelled as the library offers it. *)
From Coq Require Import String.
From Verif Require Import Base Text TextOps HealthModel.
Open Scope N_scope.

(* src/reverse/upstream.rs UpstreamConfig: bind and the addresses *)
Record upst := Upst { u_bind : text; u_addrs : list addr }.
(* the http, or the stream, section: its own upstreams and those of its servers *)
Record hsect := HSect { hs_up : list upst; hs_servers : list (list upst) }.

(* src/option.rs:705-726 try_add_upstream; the two lists grow together *)
Definition add_addr (already : list addr) (a : addr) : list addr :=
  if existsb (leqb a) already then already else already ++ [a].
(* src/option.rs:705-726 *)
Definition try_add_upstream (already : list addr) (ups : list upst) : list addr :=
  fold_left (fun acc u => if leqb (u_bind u) (txt "udp") then acc else fold_left add_addr (u_addrs u) acc) ups already.
(* src/option.rs:729-757: the servers of one section *)
Definition add_section (already : list addr) (s : option hsect) : list addr :=
  match s with None => already | Some s => fold_left try_add_upstream (hs_servers s) (try_add_upstream already (hs_up s)) end.
(* src/option.rs:729-757 get_health_check: the addresses; each with method http and the
   interval of one second *)
Definition get_health_check (http stream : option hsect) : list addr := add_section (add_section [] http) stream.
(* src/option.rs:705-726: the interval given to every target *)
Definition check_every : N := second.

(* src/check/active.rs:24-41 OneHealth: address, interval, last_record; a new one is due
   at once (Instant before the epoch is not modelled) *)
Record one := One { o_addr : addr; o_every : N; o_last : option N }.
(* src/option.rs:729-757: the list given to the checker *)
Definition checks (http stream : option hsect) : list one := map (fun a => One a check_every None) (get_health_check http stream).
(* active.rs:122-147 repeat_check, one turn of the loop: take a new list if one lies in
   the channel, then start the checks that are due *)
Definition due (now : N) (o : one) : bool :=
  match o_last o with None => true | Some l => o_every o <? now - l end.
(* check/active.rs:134-143: one round over the list *)
Definition turn (now : N) (l : list one) : list one * list addr :=
  (map (fun o => if due now o then One (o_addr o) (o_every o) (Some now) else o) l,
   map o_addr (filter (due now) l)).
(* the channel of new lists: AList l puts one in (capacity 1: the sender waits otherwise),
   AGone drops the sender; ATurn is a turn of the loop, None in the state: it has ended *)
Inductive aev := AList (l : list one) | AGone | ATurn (now : N).
(* check/active.rs:110-115 *)
Record act := Act { a_list : list one; a_new : option (list one); a_gone : bool; a_over : bool }.
(* check/active.rs:118-120 *)
Definition act0 (l : list one) : act := Act l None false false.
(* a check started at this time for this address; the sleep after the turn, in seconds *)
Inductive aout := AStart (now : N) (a : addr) | ASleep (s : N) | AEnd.
(* check/active.rs:122-147 *)
Definition astep (s : act) (e : aev) : act * list aout :=
  match e with
  | AList l => match a_new s with None => (Act (a_list s) (if a_gone s then None else Some l) (a_gone s) (a_over s), []) | Some _ => (s, []) end
  | AGone => (Act (a_list s) (a_new s) true (a_over s), [])
  | ATurn now =>
    if a_over s then (s, []) else
    match a_new s, a_gone s with
    | None, true => (Act (a_list s) None true true, [AEnd])
    | n, g =>
      let l := match n with Some l => l | None => a_list s end in
      let (l', cs) := turn now l in
      (Act l' None g false, map (AStart now) cs ++ [ASleep (match l' with [] => 60 | _ => 1 end)])
    end
  end.
(* model only: the steps of a whole event list *)
Fixpoint arun (s : act) (es : list aev) : act * list aout :=
  match es with
  | [] => (s, [])
  | e :: es' => let (s1, o1) := astep s e in let (s2, o2) := arun s1 es' in (s2, o1 ++ o2)
  end.
