(* Traces of one end of a tunnel. *)
From Verif Require Import Base PollModel.
Open Scope N_scope.

(* everything written for stream id comes after its creation was written *)
Definition announced (tr : list tout) (id : N) : Prop :=
  forall tr1 f tr2, tr = tr1 ++ OWrote f :: tr2 -> (exists x, f = FData id x) \/ f = FClose id -> In (OWrote (FCreate id)) tr1.
(* tasks act only while the loop is not in the middle of a poll: all on one thread *)
Fixpoint one_thread (mine : N -> bool) (s : tun) (es : list tev) : Prop :=
  match es with
  | [] => True
  | e :: es' => (match e with TPoll _ => True | _ => q_at s = AtWork end) /\ one_thread mine (fst (pstep mine s e)) es'
  end.
(* frames that are not creations, in the order they were queued, in the order they were
   written *)
Definition queued (tr : list tout) : list fr := flat_map (fun o => match o with OQueued (FCreate _) => [] | OQueued f => [f] | _ => [] end) tr.
Definition wrote (tr : list tout) : list fr := flat_map (fun o => match o with OWrote (FCreate _) => [] | OWrote f => [f] | _ => [] end) tr.
Definition queued_new (tr : list tout) : list N := flat_map (fun o => match o with OQueued (FCreate id) => [id] | _ => [] end) tr.
Definition wrote_new (tr : list tout) : list N := flat_map (fun o => match o with OWrote (FCreate id) => [id] | _ => [] end) tr.
Definition got (tr : list tout) : list N := flat_map (fun o => match o with ORead x => [x] | _ => [] end) tr.
Definition came (es : list tev) : list N := flat_map (fun e => match e with TArrive x => [x] | _ => [] end) es.
