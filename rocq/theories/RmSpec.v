(* Vocabulary for the streams a tunnel client opens. *)
From Verif Require Import Base Text CsModel CcModel TunSpec.
Open Scope N_scope.

(* stream s was asked for, when the queue of requests (10 places) had room *)
Definition opened (k0 : kst) (s : N) (kes : list kev) : Prop :=
  exists e0 e1, kes = e0 ++ KOpen s :: e1 /\ nlen (k_work (fst (krun k0 e0))) < work_cap.
(* the client takes data from its send queue only when no request for a stream is waiting *)
Definition asks_first (k0 : kst) (kes : list kev) : Prop :=
  forall e1 e2, kes = e1 ++ KOut :: e2 -> k_work (fst (krun k0 e1)) = [].
(* nothing is sent on stream s before it was asked for *)
Definition opens_first (k0 : kst) (s : N) (kes : list kev) : Prop :=
  forall e1 d e2, kes = e1 ++ KData s d :: e2 -> opened k0 s e1.
