(* From the words of a file-server command to the answer to a request: the section
   src/arg.rs:472-512 builds (ArgModel), handed down by option.rs:695-703,
   reverse/http.rs:116-136 and reverse/server.rs:95-122 (InhModel), searched by
   reverse/http.rs (RouteModel) and served by reverse/location.rs:188-210 with
   plugins/file_server.rs (FileModel). *)
From Coq Require Import String.
From Verif Require Import Base Text TextOps AddrModel ConfModel RouteModel InhModel ArgModel FileModel.
Open Scope N_scope.

(* ---- loading the section of a command --------------------------------------------------- *)
(* common.rs:74-105 with the access log and its name set as arg.rs:498-505 sets them; the
   domain is left out: it is not handed down (common.rs:108-156) *)
Definition common_of (log : option (text * text)) : common :=
  Common (fun k => match k with access_log => log | _ => None end) [] (match log with Some p => [p] | None => [] end) [].
(* location.rs:80-95 LocationConfig::new with what the commands set; without upstreams,
   which the section keeps *)
Definition iloc_of (l : aloc) : iloc :=
  ILoc (common_of None) (al_rule l) None [] (al_headers l) None
       (option_map (fun f => InhModel.FServer (af_root f) (af_prefix f) None) (al_file l)).
(* reverse/server.rs:64-80 ServerConfig::new: neither a root nor header rules *)
Definition iserver_of (v : aserver) : iserver := IServer (common_of (as_log v)) (as_up v) [] [] None (map iloc_of (as_locs v)).
(* reverse/http.rs:107-114 HttpConfig::new *)
Definition ihttp_of (s : asection) : ihttp := IHttp (common_of (ac_log s)) [] (map iserver_of (ac_servers s)).

(* the location after it has been filled in *)
Definition loc_filled (l : aloc) (i : iloc (V := text * text)) : aloc :=
  ALoc (i_rule i)
       (match al_file l, i_file i with
        | Some f, Some g => Some (AFile (InhModel.f_root g) (InhModel.f_prefix g) (af_types f) (af_cache f) (af_robots f) (af_404 f) (af_hide f) (af_browse f) (af_cors f))
        | f, _ => f
        end)
       (i_headers i) (al_url l) (al_ws l).
(* the server after it has been filled in *)
Definition server_filled (v : aserver) (i : iserver (V := text * text)) : aserver :=
  AServer (as_bind v) (as_ssl v) (as_cert v) (as_key v) (as_domain v) (v_up i) (as_mode v) (c_set (v_comm i) access_log)
          (map (fun p => loc_filled (fst p) (snd p)) (combine (as_locs v) (v_locs i))).
(* reverse/http.rs:116-136 after_load_option; there are no limit zones in the section of a
   command, so it does not fail *)
Definition load_web (s : asection) : option asection :=
  Some (ASection (map (fun p => server_filled (fst p) (snd p)) (combine (ac_servers s) (h_servers (fill_http (fun x => x) (ihttp_of s)))))
                 (ac_ups s) (ac_log s)).
(* reverse/stream.rs:59-64: the settings of the section are not handed down *)
Definition load_streams (s : asection) : asection :=
  let fill v := let i := iserver_of v in
                IServer (v_comm i) (v_up i) (v_upstream i) (v_headers i) (v_root i) (map (fill_location (fun x => x) i) (v_locs i)) in
  ASection (map (fun v => server_filled v (fill v)) (ac_servers s)) (ac_ups s) (ac_log s).

(* ---- serving it --------------------------------------------------------------------------- *)
(* location.rs:80-95: without method, try paths, limits and lists *)
Definition route_of (v : aserver) (l : aloc) : location :=
  Location (al_rule l) (Some (as_up v)) None (al_ws l) None None None None.
(* reverse/server.rs:34-61 *)
Definition site_of (v : aserver) : RouteModel.server := RouteModel.Server (as_up v) (as_bind v) (as_ssl v) (map (route_of v) (as_locs v)).
(* file_server.rs:183-203 FileServer::new, with the default functions of 96-110 *)
Definition files_of (f : afile) : fcfg :=
  FCfg (af_root f) (af_prefix f) (txt "application/octet-stream") (af_types f) (af_cache f) (af_robots f) (af_404 f) (af_hide f)
       [txt "index.html"; txt "index.htm"] 404 [] false (af_browse f) (af_cors f).

Section Serve.
  Context (decode : text -> option text) (date : text -> option N) (fdate : N -> text) (seek : option N -> N -> N -> bool)
          (fs : node) (cwd : list text) (cwdt : text)
          (regex : text -> option (text -> bool)) (parse_ip : text -> option ipaddr) (fmt : request -> text -> text)
          (limit : lreq -> text -> list fresp -> limres * list fresp) (rehost : location -> request -> list fresp -> option text)
          (closed : RouteModel.key -> list fresp -> bool) (reuse : RouteModel.key -> request -> list fresp -> option (res unit N) * list fresp)
          (same_key : RouteModel.key -> RouteModel.key -> bool).

  (* location.rs:188-210: the file server of the location answers; nothing is done with the
     header rules.  Simplified: a location without a file server is an error. *)
  Definition loc_answer (l : aloc) (q : freq) : res unit fresp :=
    match al_file l with
    | Some f => FileModel.deal decode date fdate seek fs cwd cwdt (files_of f) q
    | None => Err tt
    end.
  (* the same as what the search calls; the answers given are written down.  The request
     the file server gets is the one the search has at that time. *)
  Definition serve_files (l : aloc) (q : freq) (_ : location) (r : request) (w : list fresp) : res unit (N * bool) * list fresp :=
    match loc_answer l (FReq (r_path r) (q_head q) (q_accept q) (q_inm q) (q_ims q) (q_accept_ranges q) (q_if_range q) (q_range q)) with
    | Ok a => (Ok (s_status a, false), w ++ [a])
    | Err e => (Err e, w)
    | Panic => (Panic, w)
    end.
  (* wmcore.rs:299-305 and reverse/http.rs:391-418 for a request at a port; only for the
     sections of the commands, which have one server with one location.  q: the headers of
     the request the file server reads. *)
  Definition answered (s : asection) (port : N) (r : request) (q : freq) : option (st (W := list fresp) * res unit answer) :=
    match ac_servers s with
    | [v] => match as_locs v with
             | [l] => operate regex parse_ip fmt limit (serve_files l q) rehost closed reuse same_key
                              (local_servers [site_of v] port) r [] []
             | _ => None
             end
    | _ => None
    end.
  (* the answer of the file server a request at a port gets, if it gets one *)
  Definition file_gets (s : asection) (port : N) (r : request) (q : freq) : option fresp :=
    match answered s port r q with
    | Some (z, Ok (Answer c (FromServe i))) => match t_world z with [a] => Some a | _ => None end
    | _ => None
    end.
End Serve.
