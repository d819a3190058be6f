(* The HTTP proxy with the header rules of a proxy mapping: src/proxy/http.rs:74-153
   as it runs behind a tunnel (src/streams/center_client.rs:231-237).  HttpProxyModel has
   the same function without the headers.
   Library functions are parameters: same (comparison of header names in webparse's
   HeaderMap), conv (wenmeng's convert_value), target (webparse's get_connect_url: the
   address a request names by its url and its headers). *)
From Coq Require Import String.
From Verif Require Import Base Text TextOps ProtModel ConfModel AddrModel SocksModel HttpProxyModel TransModel.
Open Scope N_scope.

(* webparse Request as far as it is read here: method CONNECT, url, headers *)
Record preq := PReq { pq_connect : bool; pq_url : text; pq_headers : headers }.
(* src/proxy/http.rs:26-40 Operate: the configured credentials and rules *)
Record pcfg := PCfg { pc_auth : hcfg; pc_rules : option (list cheader) }.
(* what comes back for a request: nothing, an error, a response *)
Inductive pback := PNone | PErr | PResp (status : N) (h : headers).
(* what happens outside: a connection is opened, a request is sent, a tunnel is opened *)
Inductive pev := PDial (t : text) | PSend (t : text) (h : headers) | PTunnel (t : text).
(* the answer to the client: the proxy's own, or the target's *)
Inductive pans := POwn (n : N) | PFrom (n : N) (h : headers).

(* src/streams/center_client.rs:231-237: the proxy of a stream gets the headers of its
   mapping; src/wmcore.rs:130-136 and src/streams/center_server.rs:197-203: none *)
Definition proxy_of (c : hcfg) (m : option mapping) : pcfg :=
  PCfg c (match m with Some x => Some (rules x) | None => None end).

Section Proxy.
  Context (same : text -> text -> bool) (conv : text -> text) (target : text -> headers -> option text).

  (* src/proxy/http.rs:74-80 deal_request *)
  Definition deal_request (c : pcfg) (h : headers) : headers := match pc_rules c with Some l => rewrite_request same conv l h | None => h end.
  (* src/proxy/http.rs:82-88 deal_response *)
  Definition deal_response (c : pcfg) (h : headers) : headers := match pc_rules c with Some l => rewrite_response same conv l h | None => h end.
  (* the name of the header at src/proxy/http.rs:120 *)
  Definition auth_name : text := txt "Proxy-Authorization".
  (* webparse HeaderMap remove: the first value of that name is given back, all lines of
     that name are gone.  Simplified: the value is text (as_string succeeds). *)
  Definition auth_of (h : headers) : option text := match find (fun kv => same auth_name (fst kv)) h with Some (_, v) => Some v | None => None end.
  (* src/proxy/http.rs:96-103, 141-150 *)
  Definition pass_on (c : pcfg) (b : pback) : res unit pans :=
    match b with PResp n h => Ok (PFrom n (deal_response c h)) | _ => Err tt end.
  (* src/proxy/http.rs:92-153 operate *)
  Definition p_operate (c : pcfg) (s : hst) (q : preq) (dial : bool) (back : pback) : hst * list pev * res unit pans :=
    let h := deal_request c (pq_headers q) in
    match k_conn s with
    | Some t => (s, [PSend t h], pass_on c back)
    | None =>
      match target (pq_url q) h with
      | None => (s, [], Err tt)
      | Some t =>
        if negb dial then (s, [PDial t], Err tt)
        else
          let go (h : headers) :=
            if pq_connect q then (HSt (k_conn s) (Some t), [PDial t; PTunnel t], Ok (POwn 200))
            else (match back with PNone => s | _ => HSt (Some t) (k_tunnel s) end, [PDial t; PSend t h], pass_on c back) in
          match h_auth (pc_auth c) with
          | None => go h
          | Some (u, p) =>
            match match auth_of h with Some v => check_basic_auth u p v | None => Ok false end with
            | Ok true => go (h_remove same auth_name h)
            | Ok false => (s, [PDial t], Ok (POwn 407))
            | _ => (s, [PDial t], Panic)
            end
          end
      end
    end.
  (* one client connection, as in HttpProxyModel.h_run *)
  Fixpoint p_run (c : pcfg) (s : hst) (qs : list (preq * bool * pback)) : hst * list (list pev * res unit pans) :=
    match qs with
    | [] => (s, [])
    | (q, dial, back) :: qs' =>
      let '(s1, ev, a) := p_operate c s q dial back in
      let '(s2, l) := p_run c s1 qs' in (s2, (ev, a) :: l)
    end.
End Proxy.
