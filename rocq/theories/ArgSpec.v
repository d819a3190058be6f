(* What the command line is expected to mean. *)
From Coq Require Import String.
From Verif Require Import Base Text TextOps AddrModel ConfModel RouteModel ArgModel.
Open Scope N_scope.

(* a child that ended well *)
Definition ended_well (w : wait) : Prop := w = WExit (Some 0%Z).
(* a command line that neither asks for the background nor for supervision *)
Definition plain_run (sh : shared) : Prop := sh_daemon sh = false /\ sh_forever sh = false.
(* [without f l l']: l' is l with every f left out, the rest in order *)
Inductive without (f : text) : list text -> list text -> Prop :=
| wo_nil : without f [] []
| wo_drop l l' : without f l l' -> without f (f :: l) l'
| wo_keep x l l' : x <> f -> without f l l' -> without f (x :: l) (x :: l').
(* the same text up to the case of the letters a to z *)
Definition same_letter (a b : N) : Prop := a = b \/ (97 <= a <= 122 /\ a = b + 32) \/ (97 <= b <= 122 /\ b = a + 32).
Definition spelled_as (a b : text) : Prop := Forall2 same_letter a b.
(* the modes of ws-proxy and what they stand for *)
Definition modes : list (text * conversion) := [(txt "ws2tcp", WsToTcp); (txt "tcp2ws", TcpToWs); (txt "tcp2wss", TcpToWss)].
(* a file name with an extension: something, a dot, the extension *)
Definition has_extension (p : text) (e : text) : Prop :=
  exists dir stem, (p = stem ++ 46 :: e \/ p = dir ++ 47 :: stem ++ 46 :: e) /\ stem <> [] /\ ~ In 47 stem /\ ~ In 46 e /\ ~ In 47 e.
(* a file name without a dot, or with one at its start only *)
Definition no_extension (p : text) : Prop :=
  exists dir name, (p = name \/ p = dir ++ 47 :: name) /\ ~ In 47 name /\ (~ In 46 name \/ exists rest, name = 46 :: rest /\ ~ In 46 rest).
