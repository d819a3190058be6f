(* The server header of answers: the operate functions around the handlers of
   src/reverse/http.rs, src/trans/http.rs and src/control/server.rs.
   same: comparison of header names in webparse's HeaderMap; conv: convert_value. *)
From Coq Require Import String.
From Verif Require Import Base Text TextOps ConfModel RouteModel.
Open Scope N_scope.

(* who answers *)
Inductive surface := Reverse | MapHttp | Control.
(* what is_read_timeout says of an error: a timeout while reading, and of the client *)
Record failure := Failure { fl_timeout : bool; fl_client : bool }.
(* what comes from a handler *)
Inductive handled := HAnswer (status : N) (h : headers) | HError (f : failure).

Section Server.
  Context (same : text -> text -> bool) (conv : text -> text).
  (* reverse/http.rs:435, trans/http.rs:37, control/server.rs:49 *)
  Definition with_server (h : headers) : headers := h_insert same (txt "server") (txt "wmproxy") h.
  (* reverse/http.rs:428-455; trans/http.rs:35-39 and control/server.rs:46-51, where an error is
     handed on to wenmeng's server (None: what that answers is not modelled).  The headers of
     the two answers made here are those that webparse's Response::text and Response::status500
     give; they are left out, and that the server header is not among them is an assumption
     about webparse, whose source is not in /repo. *)
  Definition answered (o : surface) (r : handled) : option (N * headers) :=
    match r with
    | HAnswer s h => Some (s, with_server h)
    | HError f =>
      match o with
      | Reverse => if fl_timeout f && negb (fl_client f) then Some (408, []) else Some (500, [])
      | _ => None
      end
    end.
  (* an answer of a backend through a location (location.rs:185 when the connection is new,
     reverse/http.rs:355-366 when it is reused) or through a mapping (trans/http.rs:122-131) *)
  Definition through (o : surface) (reused : bool) (rules : list cheader) (s : N) (h : headers) : option (N * headers) :=
    answered o (HAnswer s (match o with
                           | Reverse => if reused then reused_response rules h else fresh_response same conv rules h
                           | MapHttp => rewrite_response same conv rules h
                           | Control => h
                           end)).
End Server.
