(* An HTTP visitor's connection at the tunnel server: src/trans/http.rs.
   The registered mappings are shared with the tunnel (Arc<RwLock>) and may change
   between any two requests.  HTTP parsing (wenmeng) is not modelled: a request is
   its Host and its headers; the outcome of passing it to the tunnelled connection
   is part of the event.  The server header line 37 adds to every answer and the
   bodies are left out. *)
From Coq Require Import String.
From Verif Require Import Base Text TextOps ProtModel ConfModel CsModel.
Open Scope N_scope.

(* prot/mapping.rs carries the same ConfigHeader as the configuration *)
Definition to_cheader (r : hrule) : cheader :=
  CHeader (match hr_oper r with HAdd => OAdd | HDel => ODel | HDefault => ODefault | HReplace => OReplace end)
          (hr_proxy r) (hr_key r) (hr_val r).
(* src/mapping/config.rs:28-37: the headers of a mapping *)
Definition rules (m : mapping) : list cheader := map to_cheader (m_headers m).

(* src/trans/http.rs:49-57 HttpOper: virtual_sender is Some until the first request *)
Record tst := TSt { t_first : bool; t_map : option mapping; t_maps : list mapping; t_dead : bool }.
(* src/trans/http.rs:138-167 *)
Definition t_init (ms : list mapping) : tst := TSt true None ms false.

(* what the tunnelled connection gives back: the client half is gone (send fails),
   nothing or an error, a response *)
Inductive tback := BGone | BNone | BResp (status : N) (h : headers).
Inductive tev :=
| TReg (ms : list mapping)                                      (* a registration *)
| TReq (host : option text) (h : headers) (back : tback).       (* a request *)
Inductive tout :=
| TCreate (s : N) (host : text)       (* a stream is opened, named host *)
| TSent (h : headers)                 (* a request is sent on the stream *)
| TAnswer (status : N) (h : headers)  (* the visitor is answered *)
| TClosed.                            (* the error ends the connection *)

Section Trans.
  Context (same : text -> text -> bool) (conv : text -> text) (s : N).

  (* src/trans/http.rs:74-82 not_found_response *)
  Definition not_found : tout := TAnswer 200 [(txt "Content-Type", txt "text/html; charset=utf-8")].

  (* src/trans/http.rs:117-135: with a mapping chosen *)
  Definition tforward (m : option mapping) (h : headers) (back : tback) : list tout :=
    match m with
    | None => [not_found]
    | Some m =>
      match back with
      | BGone => [TClosed]
      | BNone => [TSent (rewrite_request same conv (rules m) h); not_found]
      | BResp c r => [TSent (rewrite_request same conv (rules m) h);
                      TAnswer c (rewrite_response same conv (rules m) r)]
      end
    end.
  (* src/trans/http.rs:117-135: the receiver is gone after a failure *)
  Definition goes_dead (m : option mapping) (back : tback) : bool :=
    match m, back with Some _, BGone => true | _, _ => false end.

  (* src/trans/http.rs:84-136 inner_operate *)
  Definition tstep (st : tst) (e : tev) : tst * list tout :=
    match e with
    | TReg ms => (TSt (t_first st) (t_map st) ms (t_dead st), [])
    | TReq host h back =>
      if t_dead st then (st, []) else
      let hn := match host with Some x => x | None => [] end in
      if t_first st then
        match last_match (fun m => leqb (m_domain m) hn) (t_maps st) None with
        | None => (TSt false (t_map st) (t_maps st) false, [not_found])
        | Some m => (TSt false (Some m) (t_maps st) (goes_dead (Some m) back),
                     TCreate s hn :: tforward (Some m) h back)
        end
      else (TSt false (t_map st) (t_maps st) (goes_dead (t_map st) back), tforward (t_map st) h back)
    end.

  (* one list of outputs per event *)
  Fixpoint trun (st : tst) (es : list tev) : tst * list (list tout) :=
    match es with
    | [] => (st, [])
    | e :: es' => let '(st1, o) := tstep st e in let '(st2, os) := trun st1 es' in (st2, o :: os)
    end.
End Trans.
