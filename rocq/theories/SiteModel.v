(* The requests of one client connection, one after another: reverse/http.rs process and
   operate over RouteModel.  The kept backend connections live as long as the client
   connection (InnerHttpOper, reverse/http.rs:74-87), whatever sites its requests are for.
   Two records are added for the statements: which location opened a kept connection, and
   what body each backend was given. *)
From Coq Require Import String.
From Verif Require Import Base Text TextOps ConfModel AddrModel RouteModel.
Open Scope N_scope.

Section Site.
  Context {W : Type} (regex : text -> option (text -> bool)) (parse_ip : text -> option ipaddr)
          (fmt : request -> text -> text)
          (limit : lreq -> text -> W -> limres * W)
          (serve : location -> request -> W -> res unit (N * bool) * W)
          (rehost : location -> request -> W -> option text)
          (closed : key -> W -> bool)
          (reuse : key -> request -> W -> option (res unit N) * W)
          (same_key : key -> key -> bool).

  (* model only: the site and location that opened a connection *)
  Definition owner := (server * location)%type.
  (* model only: the connections kept, newest first, with their owners; the uses of kept
     connections: by which site, under which key, and whose connection it was *)
  Record pool := Pool { p_kept : list (key * owner); p_used : list (server * key * option owner); p_world : W }.
  (* reverse/http.rs:355-356: the connection kept under an equal key *)
  Definition find_kept (k : key) (l : list (key * owner)) : option owner :=
    match find (fun e => same_key k (fst e)) l with Some e => Some (snd e) | None => None end.
  (* reverse/http.rs:375-382: a connection that is kept belongs to the location *)
  Definition serve_of (sv : server) (l : location) (r : request) (p : pool) : res unit (N * bool) * pool :=
    let '(o, w) := serve l r (p_world p) in
    (o, Pool (match o with Ok (_, true) => (loc_key l, (sv, l)) :: p_kept p | _ => p_kept p end) (p_used p) w).
  (* reverse/http.rs:355-374 *)
  Definition reuse_of (sv : server) (k : key) (r : request) (p : pool) : option (res unit N) * pool :=
    let '(o, w) := reuse k r (p_world p) in
    (o, Pool (p_kept p) (p_used p ++ [(sv, k, find_kept k (p_kept p))]) w).
  (* limit_req.rs:68-89 on the world inside *)
  Definition limit_of (lr : lreq) (ip : text) (p : pool) : limres * pool :=
    let '(x, w) := limit lr ip (p_world p) in (x, Pool (p_kept p) (p_used p) w).
  (* reverse/http.rs:357 *)
  Definition closed_of (k : key) (p : pool) : bool := closed k (p_world p).

  (* reverse/http.rs:420-453: one request *)
  Definition one_request (servers : list server) (r : request) (cache : list key) (p : pool)
    : option (st (W := pool) * res unit answer) :=
    match pick_server servers (host_of r) with
    | Some sv => operate regex parse_ip fmt limit_of (serve_of sv) (fun l r p => rehost l r (p_world p)) closed_of (reuse_of sv) same_key servers r cache p
    | None => Some (St (r_path r) (r_host r) [] [] cache p [], Ok (Answer 503 Own))
    end.
  (* reverse/http.rs:463-496 process: the requests of a connection; a panic ends it *)
  Fixpoint connection (servers : list server) (rs : list request) (cache : list key) (p : pool) : list (res unit answer) * pool :=
    match rs with
    | [] => ([], p)
    | r :: rs' =>
      match one_request servers r cache p with
      | None => ([], p)
      | Some (s, Panic) => ([Panic], t_world s)
      | Some (s, a) => let '(l, q) := connection servers rs' (t_cache s) (t_world s) in (a :: l, q)
      end
    end.

  (* ---- bodies ---------------------------------------------------------------------- *)
  Context (backend : location -> request -> list N -> W -> res unit (N * bool) * bool * W)
          (again : key -> request -> list N -> W -> option (res unit N) * W).
  (* model only: the body of the request as it is now, and the bodies backends were given *)
  Record posted := Posted { b_body : list N; b_given : list (list N); b_world : W }.
  (* location.rs:121-135 and 189-210 of a location: the handler may take the body out of
     the request (replace_clone with an empty one, location.rs:130): the proxy does once
     it is connected, the file server and static answers do not *)
  Definition serve_body (l : location) (r : request) (p : posted) : res unit (N * bool) * posted :=
    let '(o, took, w) := backend l r (b_body p) (b_world p) in
    (o, if took : bool then Posted [] (b_given p ++ [b_body p]) w else Posted (b_body p) (b_given p) w).
  (* reverse/http.rs:358: a kept connection always takes it *)
  Definition reuse_body (k : key) (r : request) (p : posted) : option (res unit N) * posted :=
    let '(o, w) := again k r (b_body p) (b_world p) in (o, Posted [] (b_given p ++ [b_body p]) w).
  (* limit_req.rs:68-89 *)
  Definition limit_body (lr : lreq) (ip : text) (p : posted) : limres * posted :=
    let '(x, w) := limit lr ip (b_world p) in (x, Posted (b_body p) (b_given p) w).
  (* reverse/http.rs:420-453 of a request with this body *)
  Definition post (servers : list server) (r : request) (body : list N) (cache : list key) (w : W) : option (st (W := posted) * res unit answer) :=
    operate regex parse_ip fmt limit_body serve_body (fun l r p => rehost l r (b_world p)) (fun k p => closed k (b_world p)) reuse_body same_key servers r cache (Posted body [] w).
End Site.
