(* The tunnel client across reconnections: src/streams/center_client.rs serve
   (lines 311-360).  inner_serve is run again on a new connection; the two queues
   (sender/receiver, sender_work/receiver_work) are made once in CenterClient::new
   and handed to every run, so what they hold survives, as do the handlers (tasks)
   of the streams of earlier connections.  The socket buffers and the table of
   streams are local to inner_serve and start empty. *)
From Verif Require Import Base Text ProtModel CsModel CcModel.
Open Scope N_scope.

(* center_client.rs:322-357: when inner_serve returns, with or without error, the
   loop goes on; a panic ends the task. *)
Definition reconnects (st : kst) : Prop :=
  match k_phase st with KEnd KClosed | KEnd (KError _) => True | _ => False end.

(* center_client.rs:136-152: state at the start of the next inner_serve *)
Definition kagain (c : creds) (ms : list mapping) (st : kst) : kst :=
  KSt [] (k_box st) (k_gone st) (k_work st) (k_out st) [] (fst (hello c ms))
      (match snd (hello c ms) with None => KSelect | Some e => KEnd (KError e) end) ms
      (k_conn st) (k_next st).

(* [sessions c ms ess k0]: a new connection starts in state k0 after the earlier
   connections had the histories ess.  What queues receive between two
   connections is at the end of the history of the earlier one. *)
Inductive sessions (c : creds) (ms : list mapping) : list (list kev) -> kst -> Prop :=
| se_first : sessions c ms [] (k_init c ms)
| se_again ess k0 es st tr :
    sessions c ms ess k0 -> krun k0 es = (st, tr) -> reconnects st ->
    sessions c ms (ess ++ [es]) (kagain c ms st).
