(* What a client of a reverse-proxy command is told, and what reaches the backend. *)
From Coq Require Import String.
From Verif Require Import Base Text TextOps AddrModel RouteModel TgtModel RpModel.
Open Scope N_scope.

(* the requests of a connection and what becomes of them if all of them go to t: the
   first one over a new connection and with the name of the backend as Host.  While that
   connection is kept the next ones go over it, with the Host the client gave; when it has
   closed the request is not passed on, and answered with 404. *)
Inductive told (t : target) : bool -> list (request * moment) -> list (list passed * res unit N) -> Prop :=
| told_end : forall k, told t k [] []
| told_new : forall r m xs ys, told t (match m_new m with Ok (_, k) => k | _ => false end) xs ys ->
    told t false ((r, m) :: xs)
      (([Passed t (Some (t_connect t))], match m_new m with Ok (c, _) => Ok c | Err e => Err e | Panic => Panic end) :: ys)
| told_kept : forall r m xs ys, m_closed m = false -> told t (match m_kept m with Some (Ok _) => true | _ => false end) xs ys ->
    told t true ((r, m) :: xs)
      (([Passed t (r_host r)], match m_kept m with Some a => a | None => Ok 503 end) :: ys)
| told_closed : forall r m xs ys, m_closed m = true -> told t false xs ys ->
    told t true ((r, m) :: xs) (([], Ok 404) :: ys).
