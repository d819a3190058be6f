(* Routing of HTTP requests to locations: src/helper.rs is_match,
   src/reverse/matcher.rs, reverse_helper.rs, reverse/http.rs deal_match_location and
   inner_operate_by_http, location.rs, ws.rs on_open, wmcore.rs server choice.

   Left as parameters: the regex crate (regex p is the compiled form of p, None
   if p does not compile), std's IP text form (parse_ip), the expansion of
   placeholders in a try path (fmt), the rate limiter (limit), the handlers of
   a location (serve) and the reuse of a backend connection (reuse).  The last
   three act on a world W, so they may answer differently every time.  rehost is
   the Host that the request is read to have once a location has handled it: a
   location that passes requests on writes the address of the backend into the
   Host header of the request itself (location.rs:156-158), and later try paths
   of the same request are looked up with it.  For the file server and fixed
   answers it is the Host the request had. *)
From Coq Require Import String.
From Verif Require Import Base Text TextOps ConfModel AddrModel.
Open Scope N_scope.

(* ---- helper.rs:334-359 is_match ---------------------------------------------- *)
Fixpoint match_rest (vals : list text) (oper : text) : bool :=
  match vals with
  | [] => true
  | [v] => match strip_suffix v oper with Some _ => true | None => false end
  | v :: vs => match after_first v oper with Some r => match_rest vs r | None => false end
  end.
(* helper.rs:334-359 *)
Definition is_match (src pattern : text) : bool :=
  match split_on 42 pattern with
  | [] => true
  | v :: vs => match strip_prefix v src with Some r => match_rest vs r | None => false end
  end.

(* ---- matcher.rs ------------------------------------------------------------------ *)
(* matcher.rs:36-47; the sets of methods and schemes as lists *)
Record matcher := Matcher { m_path : option text; m_client : option (list gate); m_remote : option (list gate);
                            m_host : option text; m_method : option (list text); m_scheme : option (list text) }.
(* the parts of a request the rules look at; r_ip is the system header
   {client_ip} that wenmeng sets from the peer address *)
Record request := Request { r_path : text; r_method : text; r_scheme : text; r_host : option text; r_ip : option text }.
(* Vec::contains, HashSet::contains *)
Definition mem_text (x : text) (l : list text) : bool := existsb (leqb x) l.
(* str::replace of one character by nothing *)
Definition text_replace (c : N) (s : text) : text := filter (fun x => negb (x =? c)) s.
(* matcher.rs:57-64 *)
Definition match_name (m : matcher) : option text :=
  match m_path m with Some p => if starts_with [64] p then Some (text_replace 64 p) else None | None => None end.
(* matcher.rs:66-78 *)
Definition get_path (m : matcher) : text :=
  match m_path m with
  | Some p => if existsb (fun c => c =? 42) p
              then match text_replace 42 p with [] => [47] | v => v end
              else p
  | None => [47]
  end.

Section Matcher.
  Context (regex : text -> option (text -> bool)) (parse_ip : text -> option ipaddr).
  (* helper.rs:275-300 try_cache_regex: an empty pattern is refused; caching does
     not change the answer *)
  Definition try_regex (p : text) : option (text -> bool) := match p with [] => None | _ => regex p end.
  (* matcher.rs:81-132; the remote_ip condition is not looked at *)
  Definition path_rule (m : matcher) (path : text) : bool :=
    match m_path m with
    | None => true
    | Some p => is_match path p || match try_regex p with Some re => re path | None => false end
    end.
  (* matcher.rs:98-102 *)
  Definition method_rule (m : matcher) (r : request) : bool :=
    match m_method m with None => true | Some l => mem_text (r_method r) l end.
  (* matcher.rs:104-108 *)
  Definition scheme_rule (m : matcher) (r : request) : bool :=
    match m_scheme m with None => true | Some l => mem_text (r_scheme r) l end.
  (* matcher.rs:110-115 *)
  Definition host_rule (m : matcher) (r : request) : bool :=
    match m_host m with None => true | Some h => match r_host r with Some x => leqb x h | None => false end end.
  (* matcher.rs:117-129 *)
  Definition client_rule (m : matcher) (r : request) : res unit bool :=
    match m_client m with
    | None => Ok true
    | Some l => match r_ip r with
                | None => Ok false
                | Some t => match parse_ip t with None => Err tt | Some a => Ok (set_contains l a) end
                end
    end.
  (* matcher.rs:81-132 *)
  Definition match_rule (m : matcher) (path : text) (r : request) : res unit bool :=
    if negb (path_rule m path) then Ok false
    else if negb (method_rule m r) then Ok false
    else if negb (scheme_rule m r) then Ok false
    else if negb (host_rule m r) then Ok false
    else client_rule m r.
  (* location.rs:112-119 *)
  Definition loc_match (m : matcher) (path : text) (r : request) : bool :=
    match match_rule m path r with Ok b => b | _ => false end.
End Matcher.

(* ---- reverse/http.rs --------------------------------------------------------------------- *)
(* the parts of LocationConfig and its CommonConfig used here; l_up_name and
   l_meth only take part in the comparison of connections *)
Record location := Location { l_rule : matcher; l_up_name : option text; l_meth : option text; l_is_ws : bool;
                              l_try : option (list text * N); l_limit : option lreq;
                              l_allow : option (list gate); l_deny : option (list gate) }.
(* reverse/server.rs:34-61, the fields routing reads *)
Record server := Server { s_up_name : text; s_bind : list saddr; s_bind_ssl : list saddr; s_locs : list location }.

(* an answer: its status and who produced it *)
Inductive origin := Own | FromServe (idx : nat) | FromReuse (idx : nat).
(* status and who produced the answer *)
Record answer := Answer { a_status : N; a_from : origin }.
(* StatusCode::is_client_error, is_server_error *)
Definition is_error (s : N) : bool := (400 <=? s) && (s <=? 599).
(* what the request made the server do *)
Inductive ev := EvTry (idx : nat) | EvServe (idx : nat) (path : text) | EvReuse (idx : nat) (path : text).
(* the answer of the rate limiter: limit_req.rs:68-89 *)
Inductive limres := LimOk | LimRefuse | LimErr.
(* location.rs:72-76: two locations share a connection if rule, up_name and
   method are equal; ck is that comparison *)
Definition key := (matcher * option text * option text)%type.
(* location.rs:72-76: what two locations are compared by *)
Definition loc_key (l : location) : key := (l_rule l, l_up_name l, l_meth l).

Section Route.
  Context {W : Type} (regex : text -> option (text -> bool)) (parse_ip : text -> option ipaddr)
          (fmt : request -> text -> text)
          (limit : lreq -> text -> W -> limres * W)
          (serve : location -> request -> W -> res unit (N * bool) * W)
          (rehost : location -> request -> W -> option text)
          (closed : key -> W -> bool)
          (reuse : key -> request -> W -> option (res unit N) * W)
          (same_key : key -> key -> bool).

  (* reverse/http.rs:263-276: the state of a recursion of deal_match_location *)
  Record st := St { t_path : text; t_host : option text; t_deals : list nat; t_tried : list nat; t_cache : list key; t_world : W; t_trace : list ev }.
  (* record update *)
  Definition with_path p s := St p (t_host s) (t_deals s) (t_tried s) (t_cache s) (t_world s) (t_trace s).
  (* record update *)
  Definition with_deals d s := St (t_path s) (t_host s) d (t_tried s) (t_cache s) (t_world s) (t_trace s).
  (* record update *)
  Definition with_tried d s := St (t_path s) (t_host s) (t_deals s) d (t_cache s) (t_world s) (t_trace s).
  (* record update *)
  Definition with_cache c s := St (t_path s) (t_host s) (t_deals s) (t_tried s) c (t_world s) (t_trace s).
  (* record update *)
  Definition with_world w s := St (t_path s) (t_host s) (t_deals s) (t_tried s) (t_cache s) w (t_trace s).
  (* record update *)
  Definition with_host h s := St (t_path s) h (t_deals s) (t_tried s) (t_cache s) (t_world s) (t_trace s).
  (* the trace, for statements *)
  Definition event e s := St (t_path s) (t_host s) (t_deals s) (t_tried s) (t_cache s) (t_world s) (t_trace s ++ [e]).
  (* req.set_path (reverse/http.rs:335, 338) *)
  Definition set_req_path (r : request) (p : text) : request := Request p (r_method r) (r_scheme r) (r_host r) (r_ip r).
  (* headers_mut().insert of HOST (location.rs:157) *)
  Definition set_host (r : request) (h : option text) : request := Request (r_path r) (r_method r) (r_scheme r) h (r_ip r).
  (* HashSet::contains *)
  Definition mem_nat (n : nat) (l : list nat) : bool := existsb (Nat.eqb n) l.

  (* reverse/http.rs:270-283 the search *)
  Fixpoint find_loc (i : nat) (ls : list location) (deals : list nat) (path : text) (r : request) : option (nat * location) :=
    match ls with
    | [] => None
    | l :: ls' => if mem_nat i deals then find_loc (S i) ls' deals path r
                  else if loc_match regex parse_ip (l_rule l) path r then Some (i, l)
                  else find_loc (S i) ls' deals path r
    end.
  (* reverse/http.rs:292-299 with limit_req.rs:66-92 *)
  Definition do_limit (l : location) (r : request) (s : st) : limres * st :=
    match l_limit l, r_ip r with
    | Some lr, Some ip => let '(x, w) := limit lr ip (t_world s) in (x, with_world w s)
    | _, _ => (LimOk, s)
    end.
  (* reverse/http.rs:300-323; Ok true: go on *)
  Definition ip_gate (l : location) (r : request) : res unit bool :=
    match l_allow l, l_deny l with
    | None, None => Ok true
    | _, _ =>
      match r_ip r with
      | None => Ok true
      | Some t =>
        match parse_ip t with
        | None => Err tt
        | Some a =>
          if negb (match l_allow l with Some g => set_contains g a | None => true end) then Ok false
          else if match l_deny l with Some g => set_contains g a | None => false end then Ok false
          else Ok true
        end
      end
    end.
  (* HashMap::contains_key / remove / insert on the connections *)
  Definition cached (k : key) (c : list key) : bool := existsb (same_key k) c.
  (* HashMap::remove of the cache (reverse/http.rs:356) *)
  Definition uncache (k : key) (c : list key) : list key := filter (fun x => negb (same_key k x)) c.
  (* reverse/http.rs:349-383 *)
  Definition handle (now : nat) (l : location) (r : request) (s : st) : st * res unit answer :=
    let s := with_deals (now :: t_deals s) s in
    let k := loc_key l in
    let r := set_req_path (set_host r (t_host s)) (t_path s) in
    if cached k (t_cache s) then
      let s := with_cache (uncache k (t_cache s)) s in
      if closed k (t_world s) then (s, Ok (Answer 404 Own))
      else
        let '(o, w) := reuse k r (t_world s) in
        let s := event (EvReuse now (t_path s)) (with_world w s) in
        match o with
        | Some (Ok c) => (with_cache (k :: t_cache s) s, Ok (Answer c (FromReuse now)))
        | Some (Err _) => (s, Err tt)
        | Some Panic => (s, Panic)
        | None => (s, Ok (Answer 503 Own))
        end
    else
      let '(o, w) := serve l r (t_world s) in
      let s := event (EvServe now (t_path s)) (with_world w (with_host (rehost l r (t_world s)) s)) in
      match o with
      | Ok (c, keep) => (if keep then with_cache (k :: t_cache s) s else s, Ok (Answer c (FromServe now)))
      | Err _ => (s, Err tt)
      | Panic => (s, Panic)
      end.
  (* reverse/http.rs:331-347 the try loop; rec is deal_match_location *)
  Fixpoint try_all (rec : st -> option (st * res unit answer)) (r : request) (ori : text) (fail : N)
      (vals : list text) (s : st) : option (st * res unit answer) :=
    match vals with
    | [] => Some (s, Ok (Answer fail Own))
    | v :: vs =>
      let s := with_path (fmt (set_req_path (set_host r (t_host s)) ori) v) (with_deals [] s) in
      match rec s with
      | None => None
      | Some (s', Ok a) => if is_error (a_status a) then try_all rec r ori fail vs s' else Some (s', Ok a)
      | Some (s', Err _) => try_all rec r ori fail vs s'
      | Some (s', Panic) => Some (s', Panic)
      end
    end.
  (* reverse/http.rs:263-389; None: the fuel (recursion depth) is used up *)
  Fixpoint deal (fuel : nat) (locs : list location) (r : request) (s : st) : option (st * res unit answer) :=
    match fuel with
    | O => None
    | S f =>
      match find_loc 0 locs (t_deals s) (t_path s) (set_req_path (set_host r (t_host s)) (t_path s)) with
      | None => Some (s, Ok (Answer 404 Own))
      | Some (now, l) =>
        let '(x, s) := do_limit l r s in
        match x with
        | LimErr => Some (s, Err tt)
        | LimRefuse => Some (s, Ok (Answer 404 Own))
        | LimOk =>
          match ip_gate l r with
          | Err _ => Some (s, Err tt)
          | Panic => Some (s, Panic)
          | Ok false => Some (s, Ok (Answer 503 Own))
          | Ok true =>
            match l_try l with
            | Some (vals, fail) =>
              if mem_nat now (t_tried s) then Some (handle now l r s)
              else try_all (deal f locs r) r (t_path s) fail vals (event (EvTry now) (with_tried (now :: t_tried s) s))
            | None => Some (handle now l r s)
            end
          end
        end
      end
    end.
  (* the number of nested calls a request can need: one per location and one more *)
  Definition depth (locs : list location) : nat := S (length locs).

  (* reverse/http.rs:392-418 inner_operate_by_http: which server; wmcore.rs:299-305: only
     the servers bound to the local port are offered *)
  Definition host_of (r : request) : text := match r_host r with Some h => h | None => [] end.
  (* reverse/http.rs:391-418 *)
  Fixpoint pick_server (servers : list server) (host : text) : option server :=
    match servers with
    | [] => None
    | [s] => Some s
    | s :: ss => if leqb (s_up_name s) host || match host with [] => true | _ => false end then Some s else pick_server ss host
    end.
  (* wmcore.rs:299-305 *)
  Definition local_servers (servers : list server) (port : N) : list server :=
    filter (fun s => list_contains (s_bind s) port || list_contains (s_bind_ssl s) port) servers.
  (* reverse/http.rs:391-418 *)
  Definition operate (servers : list server) (r : request) (cache : list key) (w : W) : option (st * res unit answer) :=
    match pick_server servers (host_of r) with
    | None => Some (St (r_path r) (r_host r) [] [] cache w [], Ok (Answer 503 Own))
    | Some s => deal (depth (s_locs s)) (s_locs s) r (St (r_path r) (r_host r) [] [] cache w [])
    end.
  (* wmcore.rs:306-320: on a TLS port the server is first chosen by SNI *)
  Definition tls_servers (local : list server) (sni : option text) : list server :=
    match sni with
    | Some n => match find (fun s => leqb (s_up_name s) n) local with Some s => [s] | None => local end
    | None => local
    end.

  (* reverse_helper.rs:35-50 get_location_by_req (used for websockets): unlike the
     above it goes on to later servers when no location matches *)
  Fixpoint ws_location (servers : list server) (r : request) : option location :=
    match servers with
    | [] => None
    | s :: ss =>
      if leqb (s_up_name s) (host_of r) || match host_of r with [] => true | _ => false end || match ss with [] => true | _ => false end
      then match find (fun l => loc_match regex parse_ip (l_rule l) (r_path r) r) (s_locs s) with
           | Some l => Some l
           | None => ws_location ss r
           end
      else ws_location ss r
    end.
  (* ws.rs:35-76 on_open, up to the connection to the backend *)
  Definition ws_connects (servers : list server) (r : request) : option location :=
    match ws_location servers r with Some l => if l_is_ws l then Some l else None | None => None end.
End Route.

(* ---- what is forwarded ------------------------------------------------------------ *)
Section Forward.
  Context (same : text -> text -> bool) (conv : text -> text).
  (* HeaderMap::insert (webparse): the value replaces what is there *)
  Definition h_insert (k v : text) (h : headers) : headers := (k, v) :: h_remove same k h.
  (* location.rs:156-158, 171-185: over a new backend connection; connect is the
     backend address the Host header is set to, rules the location's header rules *)
  Definition fresh_request (connect : option text) (rules : list cheader) (h : headers) : headers :=
    match connect with Some c => h_insert (txt "host") c h | None => h end.
  (* location.rs:185 *)
  Definition fresh_response (rules : list cheader) (h : headers) : headers := rewrite_response same conv rules h.
  (* reverse/http.rs:354-363: over a connection that is already there *)
  Definition reused_request (connect : option text) (rules : list cheader) (h : headers) : headers := h.
  (* reverse/http.rs:355-366: no rule is applied *)
  Definition reused_response (rules : list cheader) (h : headers) : headers := h.
End Forward.
