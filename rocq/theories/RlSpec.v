(* What an instance of the proxy section is for: words about the trace of its accept loop
   (CoreModel.coout) and the ports it has bound. *)
From Verif Require Import Base ProtModel CoreModel.
Open Scope N_scope.

(* every connection of the history comes in at a port that is bound; the ports of the web
   and stream sections are not those of the proxy section *)
Definition comes_in (b : binding) (es : list coev) : Prop :=
  forall k v, In (CConn k v) es -> k = LWeb \/ k = LStream \/ exists a, In (k, a) (b_listen b).
(* the connections of one port that were closed unserved, in order *)
Definition closed_unserved (k : lkind) (tr : list coout) : list N :=
  flat_map (fun o => match o with XDrop k' c => if lkind_eqb k' k then [c] else [] | _ => [] end) tr.
(* the stream numbers of the connections sent through the own tunnel, in order *)
Definition forwarded (tr : list coout) : list N :=
  flat_map (fun o => match o with XForward _ id => [id] | _ => [] end) tr.
(* the numbers an end of a tunnel gives: its server number in the upper half, every second
   number from the first one on in the lower, which starts over at 2^32 *)
Definition every_second (sid first : N) (n : nat) : list N :=
  map (fun i => sid * 2 ^ 32 + (first + 2 * N.of_nat i) mod 2 ^ 32) (seq 0 n).
