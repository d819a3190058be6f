(* What can be seen of the accept loop, in terms of its trace (CoreModel.coout): tunnels
   opened and ended, what became of each connection. *)
From Verif Require Import Base ProtModel CoreModel.
Open Scope N_scope.

Definition opened (tr : list coout) (j : nat) : Prop := exists c, In (XTunnel j c) tr.
Definition alive (tr : list coout) (j : nat) : Prop := opened tr j /\ ~ In (XOver j) tr.
(* j is the tunnel that has been connected for longest *)
Definition oldest_alive (tr : list coout) (j : nat) : Prop := alive tr j /\ forall i, alive tr i -> (j <= i)%nat.
(* tunnels in the order they were opened *)
Definition tunnels (tr : list coout) : list nat := flat_map (fun o => match o with XTunnel j _ => [j] | _ => [] end) tr.
(* stream numbers given to the visitors of tunnel j, in order *)
Definition numbers (j : nat) (tr : list coout) : list N :=
  flat_map (fun o => match o with XVisitor _ _ i id => if Nat.eqb i j then [id] else [] | _ => [] end) tr.
Definition visitor_port (k : lkind) : Prop := In k [LHttp; LHttps; LTcp; LProxy].

(* what became of the connections of one port, in order *)
Definition settled (k : lkind) (tr : list coout) : list N :=
  flat_map (fun o => match o with
    | XTunnel _ c | XRelay c => if lkind_eqb LCenter k then [c] else []
    | XForward c _ | XLocal c => if lkind_eqb LClient k then [c] else []
    | XVisitor k' c _ _ | XServe k' c | XDrop k' c => if lkind_eqb k' k then [c] else []
    | XSecure _ | XOver _ | XReturn => []
    end) tr.
Definition arrived (k : lkind) (es : list coev) : list N :=
  flat_map (fun e => match e with CConn k' c => if lkind_eqb k' k then [c] else [] | _ => [] end) es.
