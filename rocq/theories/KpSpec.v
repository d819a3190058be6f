(* What it means that a stream is over at one end of a tunnel. *)
From Verif Require Import Base Text ProtModel CsModel CcModel HealthModel.
Open Scope N_scope.

(* at the server: some handler had the stream, it was given the close and it is gone *)
Definition over_at_server (tr : list eff) (st : sst) (s : N) : Prop :=
  exists h r, In (OBind s h) tr /\ In (OGot h (FClose s r)) tr /\ In h (s_gone st).
(* at the client *)
Definition over_at_client (tr : list keff) (st : kst) (s : N) : Prop :=
  exists h r, In (QBind s h) tr /\ In (QGot h (FClose s r)) tr /\ In h (k_gone st).
(* everything the record of an address can still do is over: its time has passed *)
Definition expired (now : N) (v : hrec) : Prop := h_record v + h_timeout v < now.
