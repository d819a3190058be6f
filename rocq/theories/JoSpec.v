(* One history of a client and a server together: the events of both in the order
   in which they happened.  At every moment each side has read an initial part of
   what the other side had written by then. *)
From Verif Require Import Base Text ProtModel ProtSpec CsModel CsSpec CcModel CcSpec TunSpec.
Open Scope N_scope.

Inductive jev := AtServer (e : ev) | AtClient (e : kev).

(* What happened at the server, and what happened at the client. *)
Definition evs (w : list jev) : list ev :=
  flat_map (fun j => match j with AtServer e => [e] | AtClient _ => [] end) w.
Definition kevs (w : list jev) : list kev :=
  flat_map (fun j => match j with AtClient e => [e] | AtServer _ => [] end) w.

(* What can be seen at the server and at the client in a history. *)
Definition seen (c : creds) (w : list jev) : list eff := snd (run c (s_init c) (evs w)).
Definition kseen (c : creds) (ms : list mapping) (w : list jev) : list keff :=
  snd (krun (k_init c ms) (kevs w)).

(* Nothing is read before it is written. *)
Definition causal (c : creds) (ms : list mapping) (w : list jev) : Prop :=
  forall p q, w = p ++ q ->
    prefix (bytes_read (seen c p)) (kwritten (kseen c ms p)) /\
    prefix (kbytes_read (kseen c ms p)) (written (seen c p)).

(* A client and a server with the same credentials (both or none). *)
Record whole (c : creds) (ms : list mapping) (w : list jev) : Prop := Whole {
  w_causal : causal c ms w;
  w_creds : (exists u p, c = Creds (Some u) (Some p) /\ short_string u /\ short_string p) \/
            c = Creds None None;
  w_maps : fits (FMapping 0 ms) /\ Forall (fun m => m_name m <> []) ms;
  w_kev : Forall kev_ok (kevs w);
  w_ev : Forall ev_ok (evs w)
}.

(* A local service speaks on stream s only after the client has given it the stream. *)
Definition replies_only (c : creds) (ms : list mapping) (s : N) (w : list jev) : Prop :=
  forall p d q, w = p ++ AtClient (KData s d) :: q -> exists h, In (QBind s h) (kseen c ms p).

(* The server takes data from its send queue only when no request of a visitor is
   waiting. *)
Definition creates_first (c : creds) (w : list jev) : Prop :=
  forall p q, w = p ++ AtServer EvOut :: q -> s_work (fst (run c (s_init c) (evs p))) = [].

(* Stream number s is asked for by at most one visitor. *)
Definition once (s : N) (w : list jev) : Prop :=
  forall p v q v', evs w = p ++ EvVisit s v :: q -> ~ In (EvVisit s v') q.
