(* What can be read off a trace of datagrams. *)
From Verif Require Import Base UdpModel.
Open Scope N_scope.

(* the datagrams given to the operating system for clients, in order *)
Definition to_clients (tr : list uout) : list item :=
  flat_map (fun o => match o with OClient d a | OLost d a => [(d, a)] | _ => [] end) tr.
(* what the sessions got for their clients, in order: datagrams cut to 9096 bytes and,
   at the end of a session, an empty one *)
Definition for_clients (tr : list uout) : list item :=
  flat_map (fun o => match o with OReply _ a _ d => [(firstn (N.to_nat 9096) d, a)] | OEnd _ a => [([], a)] | _ => [] end) tr.
Definition hit (a : uaddr) (d : bytes) (a' : uaddr) (d' : bytes) : nat := if (a =? a') && leqb d d' then 1%nat else 0%nat.
(* how often datagram d came from client a *)
Fixpoint came (a : uaddr) (d : bytes) (tr : list uout) : nat :=
  match tr with [] => 0 | OIn a' d' :: tr' => hit a d a' d' + came a d tr' | _ :: tr' => came a d tr' end.
(* how often sessions of client a sent datagram d upstream *)
Fixpoint went_up (a : uaddr) (d : bytes) (tr : list uout) : nat :=
  match tr with [] => 0 | OUp _ a' d' _ :: tr' => hit a d a' d' + went_up a d tr' | _ :: tr' => went_up a d tr' end.
(* an event in which no session ends and no datagram finds the upstream missing *)
Definition keeps_going (e : uev) : Prop :=
  match e with TStop _ | TSend _ false | UPoll _ _ (Some _) _ _ None => False | _ => True end.
