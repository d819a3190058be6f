(* From the words of a reverse-proxy command to what reaches the backend over a connection
   of a client: the section src/arg.rs:541-572 builds (ArgModel), loaded by FsModel,
   searched by reverse/http.rs:263-418 (RouteModel) and passed on by
   reverse/location.rs:137-183 (TgtModel), with the connections kept in
   reverse/http.rs:355-383. *)
From Coq Require Import String.
From Verif Require Import Base Text TextOps AddrModel ConfModel HealthModel RouteModel ArgModel TgtModel FsModel.
Open Scope N_scope.

(* arg.rs:547-553: the URL of the location; only host and scheme are written *)
Definition url_of (u : bool * text) : url := Url (if fst u then OtherScheme (txt "https") else Http) (Some (snd u)) None.
(* webparse::Scheme of a request *)
Definition scheme_of (r : request) : scheme :=
  match r_scheme r with [] => NoScheme | s => if leqb s (txt "http") then Http else OtherScheme s end.

(* a request that was passed on: over which connection, and with which Host *)
Record passed := Passed { p_to : target; p_host : option text }.
(* what a connection of a client has led to: the backend the kept connection leads to
   (reverse/http.rs:358, cache_sender), and what was passed on *)
Record world := World { w_conn : option target; w_sent : list passed }.
(* the surroundings of a request: the random number and the time of the choice, the health
   records, what becomes of the request at a new connection (the status; whether the
   connection is kept, location.rs:131), whether the kept connection has closed
   (reverse/http.rs:357), and what comes back over it (reverse/http.rs:359-376) *)
Record moment := Moment { m_draw : N; m_now : N; m_health : hcheck; m_new : res unit (N * bool); m_closed : bool; m_kept : option (res unit N) }.

Section Pass.
  Context (show_ip : ipaddr -> text) (connect_url : url -> option text) (name_of : saddr -> addr) (sa : addr -> saddr)
          (regex : text -> option (text -> bool)) (parse_ip : text -> option ipaddr) (fmt : request -> text -> text)
          (limit : lreq -> text -> world -> limres * world) (rehost : location -> request -> world -> option text)
          (same_key : RouteModel.key -> RouteModel.key -> bool).

  (* reverse/http.rs:131, reverse/server.rs:110: the location has the upstreams of the section; upstream.rs:62-68 *)
  Definition ups_now (s : asection) (m : moment) : upstreams :=
    now_of sa (m_draw m) (m_now m) (m_health m)
      (map (fun u => (au_name u, map (fun a => new_simple (name_of a)) (au_members u))) (ac_ups s)).
  (* location.rs:188-210 for a location without file server, and location.rs:137-183 *)
  Definition pass_new (s : asection) (l : aloc) (m : moment) (_ : location) (r : request) (w : world) : res unit (N * bool) * world :=
    match al_url l with
    | None => (Err tt, w)
    | Some u =>
      match http_target show_ip connect_url (url_of u) (ups_now s m) (scheme_of r) with
      | Ok t => (m_new m, World (Some t) (w_sent w ++ [Passed t (Some (t_connect t))]))
      | Err e => (Err e, w)
      | Panic => (Panic, w)
      end
    end.
  (* reverse/http.rs:357-376: the request goes out as the client sent it *)
  Definition pass_kept (m : moment) (_ : RouteModel.key) (r : request) (w : world) : option (res unit N) * world :=
    (m_kept m, World (w_conn w) (w_sent w ++ match w_conn w with Some t => [Passed t (r_host r)] | None => [] end)).
  (* wmcore.rs:299-305 and reverse/http.rs:391-418 for a request at a port; only for the sections of
     the commands, which have one server with one location *)
  Definition pass (s : asection) (port : N) (cache : list RouteModel.key) (conn : option target) (x : request * moment)
    : option (st (W := world) * res unit answer) :=
    match ac_servers s with
    | [v] => match as_locs v with
             | [l] => operate regex parse_ip fmt limit (pass_new s l (snd x)) rehost (fun _ _ => m_closed (snd x)) (pass_kept (snd x)) same_key
                              (local_servers [site_of v] port) (fst x) cache (World conn [])
             | _ => None
             end
    | _ => None
    end.
  (* the requests of a connection of a client, one after another (reverse/http.rs:463-490): for each,
     what was passed on and the status.  Simplified: the requests go on after a crash. *)
  Fixpoint passes (s : asection) (port : N) (cache : list RouteModel.key) (conn : option target) (xs : list (request * moment))
    : list (list passed * res unit N) :=
    match xs with
    | [] => []
    | x :: xs' =>
      match pass s port cache conn x with
      | None => []
      | Some (z, a) => (w_sent (t_world z), match a with Ok b => Ok (a_status b) | Err e => Err e | Panic => Panic end)
                       :: passes s port (t_cache z) (w_conn (t_world z)) xs'
      end
    end.
End Pass.
