(* Vocabulary for the HTTP visitor's connection. *)
From Coq Require Import String.
From Verif Require Import Base Text TextOps ProtModel ConfModel TransModel.
Open Scope N_scope.

(* The mapping that owns a host: the last one registered with that domain. *)
Definition owns (ms : list mapping) (host : text) (m : mapping) : Prop :=
  exists a b, ms = a ++ m :: b /\ m_domain m = host /\ Forall (fun m' => m_domain m' <> host) b.
Definition unknown (ms : list mapping) (host : text) : Prop := Forall (fun m => m_domain m <> host) ms.
(* A request without Host counts as one for the empty host. *)
Definition host_of (host : option text) : text := match host with Some x => x | None => [] end.

(* The mappings registered after a history without requests / in general. *)
Definition now (ms : list mapping) (es : list tev) : list mapping :=
  fold_left (fun acc e => match e with TReg ms' => ms' | TReq _ _ _ => acc end) es ms.
Definition is_reg (e : tev) : Prop := match e with TReg _ => True | TReq _ _ _ => False end.

(* What a list of header rules does to the headers of a message going one way: up, to
   the service (rules marked proxy), or down, to the visitor (the others).  Rules
   apply in order; replacing is adding (see C27). *)
Definition ruled (same : text -> text -> bool) (conv : text -> text) (up : bool) (rs : list hrule) (h : headers) : headers :=
  fold_left (fun h r =>
    match Bool.eqb (hr_proxy r) up, hr_oper r with
    | false, _ => h
    | true, HDel => filter (fun kv => negb (same (hr_key r) (fst kv))) h
    | true, HDefault => if existsb (fun kv => same (hr_key r) (fst kv)) h then h else h ++ [(hr_key r, conv (hr_val r))]
    | true, (HAdd | HReplace) => h ++ [(hr_key r, conv (hr_val r))]
    end) rs h.
(* The request sent under mapping m, and the answer a service response r deserves. *)
Definition served (same : text -> text -> bool) (conv : text -> text) (m : mapping) (h : headers) (back : tback) : list tout :=
  match back with
  | BGone => [TClosed]
  | BNone => [TSent (ruled same conv true (m_headers m) h); TAnswer 200 [(txt "Content-Type", txt "text/html; charset=utf-8")]]
  | BResp c r => [TSent (ruled same conv true (m_headers m) h); TAnswer c (ruled same conv false (m_headers m) r)]
  end.
(* ... as long as the connection lives: an answered request *)
Definition answered (back : tback) : Prop := back <> BGone.
