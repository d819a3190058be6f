(* One client connection of the HTTP proxy from its first byte to its end:
   src/proxy/http.rs:166-231 over h_operate (HttpProxyModel, 93-153).

   Not modelled: wenmeng's HTTP server (the bytes of the client come cut into requests and
   bytes that are no request), the timing of the relay. *)
From Coq Require Import String.
From Verif Require Import Base Text TextOps ConfModel AddrModel SocksModel HttpProxyModel.
Open Scope N_scope.

(* CnReq: the bytes of a whole request, what it says, whether its target can be connected
   to and what the target answers; extra: what the server had read beyond the request when
   it was answered.  While the connection goes on as HTTP, extra is the beginning of what
   the next events carry.
   CnData: bytes of the client that are no HTTP request; CnFrom: bytes from the target of
   the tunnel; CnClientEof, CnTargetEof: that side sends nothing more; CnBroken: a read or
   write error on either side *)
Inductive cnev :=
| CnReq (raw : bytes) (q : hreq) (dial : bool) (reply : option bool) (extra : bytes)
| CnData (b : bytes) | CnFrom (b : bytes) | CnClientEof | CnTargetEof | CnBroken.
(* what others see: connections and requests to targets; answers and bytes to the client;
   bytes to the target; ends of sending *)
Inductive cnout := CnEv (e : hev) | CnAnswer (a : hans) | CnToClient (b : bytes) | CnToTarget (h : text) (b : bytes) | CnShutTarget | CnShutClient.
(* CnTunnel: the target, and whether the client and the target may still send *)
Inductive cnphase := CnHttp | CnTunnel (h : text) (client target : bool) | CnEnd.
(* cn_only: proxy/http.rs:196-200 max_req_num, Some false before the first byte *)
Record cn := Cn { cn_phase : cnphase; cn_st : hst; cn_only : option bool }.
(* proxy/http.rs:177-215 before the first byte *)
Definition cn0 : cn := Cn CnHttp (HSt None None) None.

(* proxy/http.rs:196-200: the first byte is C or c *)
Definition one_only (raw : bytes) : bool := match raw with b :: _ => (b =? 67) || (b =? 99) | [] => false end.

Section Connection.
  (* wenmeng: given_back, what of the bytes read too much comes out of into_io (225);
     err_ends: does an error of operate end incoming (214) *)
  Context (cf : hcfg) (given_back : bytes -> bytes) (err_ends : bool).

  (* proxy/http.rs:215-231: incoming has ended without an error *)
  Definition take_over (s : hst) (only : option bool) (client : bool) (extra : bytes) : cn * list cnout :=
    match k_tunnel s with
    | Some h =>
      (Cn (CnTunnel h client true) s only,
       (match given_back extra with [] => [] | b => [CnToTarget h b] end) ++ (if client then [] else [CnShutTarget]))
    | None => (Cn CnEnd s only, [])
    end.
  (* tokio copy_bidirectional (proxy/http.rs:226): ends when both sides have ended *)
  Definition relay_end (h : text) (client target : bool) (s : cn) : cn :=
    Cn (if client || target then CnTunnel h client target else CnEnd) (cn_st s) (cn_only s).

  (* proxy/http.rs:166-231, one event *)
  Definition cnstep (s : cn) (e : cnev) : cn * list cnout :=
    match cn_phase s with
    | CnEnd => (s, [])
    | CnHttp =>
      match e with
      | CnReq raw q dial reply extra =>
        let only := match cn_only s with Some o => o | None => one_only raw end in
        let '(st, ev, r) := h_operate cf (cn_st s) q dial reply in
        match r with
        | Ok a =>
          if only then let (s', o) := take_over st (Some only) true extra in (s', map CnEv ev ++ [CnAnswer a] ++ o)
          else (Cn CnHttp st (Some only), map CnEv ev ++ [CnAnswer a])
        | Err _ =>
          if err_ends then (Cn CnEnd st (Some only), map CnEv ev)
          else if only then let (s', o) := take_over st (Some only) true extra in (s', map CnEv ev ++ o)
          else (Cn CnHttp st (Some only), map CnEv ev)
        | Panic => (Cn CnEnd st (Some only), map CnEv ev)
        end
      | CnData _ | CnBroken => (Cn CnEnd (cn_st s) (cn_only s), [])   (* 214: incoming returns an error *)
      | CnClientEof => take_over (cn_st s) (cn_only s) false []
      | CnFrom _ | CnTargetEof => (s, [])
      end
    | CnTunnel h c t =>
      match e with
      | CnReq raw _ _ _ _ | CnData raw => if c then (s, match raw with [] => [] | _ => [CnToTarget h raw] end) else (s, [])
      | CnFrom b => if t then (s, match b with [] => [] | _ => [CnToClient b] end) else (s, [])
      | CnClientEof => if c then (relay_end h false t s, [CnShutTarget]) else (s, [])
      | CnTargetEof => if t then (relay_end h c false s, [CnShutClient]) else (s, [])
      | CnBroken => (Cn CnEnd (cn_st s) (cn_only s), [])
      end
    end.
  (* model only: a whole connection *)
  Fixpoint cnrun (s : cn) (es : list cnev) : cn * list cnout :=
    match es with
    | [] => (s, [])
    | e :: es' => let (s1, o1) := cnstep s e in let (s2, o2) := cnrun s1 es' in (s2, o1 ++ o2)
    end.
End Connection.
