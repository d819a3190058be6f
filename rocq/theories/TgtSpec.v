(* Where requests go, independently of the code. *)
From Verif Require Import Base Text TextOps ConfModel AddrModel HealthModel TgtModel.
Open Scope N_scope.

(* the upstream a name stands for: the first one of that name; no name stands for the
   first upstream of all *)
Definition meant (us : upstreams) (d : text) (c : res unit (option saddr)) : Prop :=
  exists pre n post, us = pre ++ (n, c) :: post /\
    ((d = [] /\ pre = []) \/ (d <> [] /\ n = d /\ ~ In d (map fst pre))).
Definition unknown (us : upstreams) (d : text) : Prop := ~ In d (map fst us) /\ (d = [] -> us = []).

(* the name a backend is told: the domain the server configures, or the host of the URL *)
Definition told_name (own : option text) (host : text) (name : option text) : Prop :=
  match own with Some d => name = Some d | None => name = Some host end.
(* the scheme spoken: the URL's, otherwise that of the request *)
Definition speaks (u : url) (asked : scheme) (s : scheme) : Prop :=
  (u_scheme u = s /\ s <> NoScheme) \/ (u_scheme u = NoScheme /\ s = asked).

(* ---- websockets ---- *)
Definition the_side (a b : side) : bool := match a, b with Client, Client | Backend, Backend => true | _, _ => false end.
(* frames taken from a side, messages sent to a side, in order *)
Definition taken (d : side) (os : list wout) : list wcall :=
  flat_map (fun o => match o with WDone d' c => if the_side d d' then [c] else [] | _ => [] end) os.
Definition sent (d : side) (os : list wout) : list wmsg :=
  flat_map (fun o => match o with WSent d' m => if the_side d d' then [m] else [] | _ => [] end) os.
Definition arrived (d : side) (es : list wev) : list wcall :=
  flat_map (fun e => match e with WCall d' c => if the_side d d' then [c] else [] | _ => [] end) es.
(* a frame and the message that is the same *)
Inductive same_frame : wcall -> wmsg -> Prop :=
| sf_close r : same_frame (OnClose r) (MClose r)
| sf_ping b : same_frame (OnPing b) (MPing b)
| sf_pong b : same_frame (OnPong b) (MPong b)
| sf_data k b : same_frame (OnMessage k b) (MData k b).
Definition waiting (d : side) (s : wst) : list wmsg := match d with Client => w_down s | Backend => w_up s end.
Definition other (d : side) : side := match d with Client => Backend | Backend => Client end.
