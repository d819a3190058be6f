(* Listening: vocabulary. *)
From Coq Require Import String.
From Verif Require Import Base Text TextOps AddrModel ConfModel RouteModel BindModel.
Open Scope N_scope.

(* All addresses of the http section in the order of the configuration, with
   whether they are listed under bind_ssl. *)
Definition listed (ss : list bserver) : list (saddr * bool) :=
  flat_map (fun s => map (fun a => (a, false)) (s_bind (b_srv s)) ++ map (fun a => (a, true)) (s_bind_ssl (b_srv s))) ss.
(* x is the first entry of the list with its key *)
Definition first_by {A K} (key : A -> K) (l : list A) (x : A) : Prop :=
  exists a b, l = a ++ x :: b /\ ~ In (key x) (map key a).
(* Server s lists address a. *)
Definition lists (s : server) (a : saddr) : Prop := In a (s_bind s) \/ In a (s_bind_ssl s).
Definition has_port (s : server) (p : N) : Prop := exists a, lists s a /\ sa_port a = p.

(* All stream addresses in order, with udp flag and server index; keyed by port. *)
Fixpoint slisted (i : nat) (ss : list sserver) : list (saddr * bool * nat) :=
  match ss with
  | [] => []
  | s :: ss' => map (fun a => (a, leqb (ss_mode s) (txt "udp"), i)) (ss_bind s) ++ slisted (S i) ss'
  end.
Definition port_of (x : saddr * bool * nat) : N := sa_port (fst (fst x)).
