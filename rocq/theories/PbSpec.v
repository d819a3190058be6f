(* Active checks, by what they meet and what is seen of them. *)
From Coq Require Import String.
From Verif Require Import Base Text TextOps ConfModel HealthModel HealthSpec PbModel.
Open Scope N_scope.

(* the method is http, in whatever case *)
Definition http_method (m : text) : Prop := Forall2 (fun c d => c = d \/ c + 32 = d) m (txt "http").
Definition within (m : text) (every took : N) : Prop := (http_method m -> took <= every + 3 * second) /\ (~ http_method m -> took <= 3 * second).
(* the backend answered in time, and for the http method not with a server error *)
Definition passed (m : text) (every : N) (o : outcome) : Prop :=
  exists took s, o = Some (took, Status s) /\ within m every took /\ (http_method m -> s < 500 \/ 600 <= s).

(* the calls a history of outputs makes on the table *)
Definition calls (tr : list pout) : list hop :=
  flat_map (fun x => match x with
    | PSent _ a _ every _ now | PSkip a every now => [HProbe a every now]
    | PCount _ a true now => [HRise a now]
    | PCount _ a false now => [HFail a now]
    end) tr.
(* the results counted for an address, newest first *)
Definition counted (a : addr) (tr : list pout) : list result :=
  rev (flat_map (fun x => match x with PCount _ b good now => if leqb b a then [(negb good, now)] else [] | _ => [] end) tr).
(* how long a result is remembered: see memory; the thirty seconds apply if a check was
   made before the first result *)
Definition remembered (T : N) (a : addr) (tr : list pout) : N := memory T a (calls tr).
(* between any two failures a success *)
Fixpoint never_twice (l : list result) : Prop :=
  match l with
  | (true, _) :: (((true, _) :: _) as l') => False
  | _ :: l' => never_twice l'
  | [] => True
  end.
