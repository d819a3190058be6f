(* What arrives at an end of a tunnel: bytes, so many at a time. *)
From Verif Require Import Base ProtModel CsModel CcModel.
Open Scope N_scope.

(* the longest frame: a header of 12 bytes and a length of 24 bits *)
Definition frame_room : N := 12 + 2 ^ 24.
(* what the peer sends to the server: bytes, at most m at a time *)
Definition reads_bytes (m : N) (e : ev) : Prop := match e with EvRead b => bytes_ok b = true /\ nlen b <= m | _ => True end.
(* what the server sends to the client *)
Definition kreads_bytes (m : N) (e : kev) : Prop := match e with KRead b => bytes_ok b = true /\ nlen b <= m | _ => True end.
