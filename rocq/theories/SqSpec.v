(* TCP stream connections: vocabulary. *)
From Verif Require Import Base SqModel.
Open Scope N_scope.

(* The connections accepted, contacted and dropped, in order. *)
Definition accepted (es : list sev) : list N := flat_map (fun e => match e with SAccept c => [c] | _ => [] end) es.
Definition contacted (o : list sout) : list N := flat_map (fun x => match x with SConnect c => [c] | _ => [] end) o.
Definition dropped (o : list sout) : list N := flat_map (fun x => match x with SDrop c => [c] | _ => [] end) o.
(* The bytes of a client that were ready to be read, and those passed to its backend. *)
Definition sent_by (c : N) (es : list sev) : list N :=
  List.concat (flat_map (fun e => match e with SBytes d b => if d =? c then [b] else [] | _ => [] end) es).
Definition passed_for (c : N) (o : list sout) : list N :=
  List.concat (flat_map (fun x => match x with SPass d b => if d =? c then [b] else [] | _ => [] end) o).
(* The connection an effect is for. *)
Definition for_conn (x : sout) : N := match x with SConnect c | SPass c _ | SDrop c => c end.
