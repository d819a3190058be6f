(* Places in a configuration file, and when a file has the right form. *)
From Coq Require Import String.
From Verif Require Import Base Text TextOps FmModel.
Open Scope N_scope.

(* one step into a value *)
Inductive step := Key (k : text) | At (i : nat).
(* what is found at a place *)
Fixpoint sub (v : val) (p : list step) : option val :=
  match p with
  | [] => Some v
  | Key k :: p' => match v with VTab t => match lookup leqb k t with Some x => sub x p' | None => None end | _ => None end
  | At i :: p' => match v with VList l => match nth_error l i with Some x => sub x p' | None => None end | _ => None end
  end.
(* place p of the value v, read as type s, is known: it is read as type s' and x is written there *)
Inductive part : schema -> val -> list step -> schema -> val -> Prop :=
| part_here s v : part s v [] s v
| part_opt s v p s' x : v <> VNull -> part s v p s' x -> part (Opt s) v p s' x
| part_vec s l i y p s' x : nth_error l i = Some y -> part s y p s' x -> part (Vec s) (VList l) (At i :: p) s' x
| part_map s t k y p s' x : In (k, y) t -> part s y p s' x -> part (Map s) (VTab t) (Key k :: p) s' x
| part_or s t p s' x : part s (VTab t) p s' x -> part (TextOr s) (VTab t) p s' x
| part_field fs t k must s y p s' x : In (k, (must, s)) fs -> lookup leqb k t = Some y -> part s y p s' x -> part (Struct fs) (VTab t) (Key k :: p) s' x.
(* the value itself has the form of its type: the right kind, and no required key missing *)
Definition fits (accepts : leaf -> val -> bool) (s : schema) (v : val) : Prop :=
  match s with
  | Leaf k => accepts k v = true
  | Opt _ => True
  | Vec _ => exists l, v = VList l
  | Map _ => exists t, v = VTab t
  | TextOr _ => (exists t, v = VTab t) \/ accepts (txt "str") v = true
  | Struct fs => exists t, v = VTab t /\ forall k s', In (k, (true, s')) fs -> lookup leqb k t <> None
  end.
(* the names of the fields of every struct are different *)
Inductive wf : schema -> Prop :=
| wf_leaf k : wf (Leaf k)
| wf_opt s : wf s -> wf (Opt s)
| wf_vec s : wf s -> wf (Vec s)
| wf_map s : wf s -> wf (Map s)
| wf_or s : wf s -> wf (TextOr s)
| wf_struct fs : NoDup (map fst fs) -> (forall k b s, In (k, (b, s)) fs -> wf s) -> wf (Struct fs).
(* v' is v with one more key somewhere in a known place, a key the struct there does not have *)
Inductive adds : schema -> val -> val -> Prop :=
| adds_here fs a k x b : ~ In k (map fst fs) -> adds (Struct fs) (VTab (a ++ b)) (VTab (a ++ (k, x) :: b))
| adds_opt s v v' : adds s v v' -> adds (Opt s) v v'
| adds_vec s a v v' b : adds s v v' -> adds (Vec s) (VList (a ++ v :: b)) (VList (a ++ v' :: b))
| adds_map s a k v v' b : adds s v v' -> adds (Map s) (VTab (a ++ (k, v) :: b)) (VTab (a ++ (k, v') :: b))
| adds_or s t v' : adds s (VTab t) v' -> adds (TextOr s) (VTab t) v'
| adds_field fs a k must s v v' b : In (k, (must, s)) fs -> ~ In k (map fst a) -> adds s v v' ->
    adds (Struct fs) (VTab (a ++ (k, v) :: b)) (VTab (a ++ (k, v') :: b)).

(* The keys of a configuration file, by the part of the file (the names of the keys that
   lead to it), as a user finds them in the structs; within a part in alphabetical order. *)
Definition common_keys : list string :=
  ["access_log"; "allow_ip"; "client_ka_timeout"; "client_read_timeout"; "client_timeout"; "client_write_timeout"; "deny_ip"; "domain"; "error_log";
   "limit_req"; "log_format"; "log_names"; "match_names"; "max_read_buf"; "proxy_connect_timeout"; "proxy_read_timeout"; "proxy_timeout"; "proxy_url";
   "proxy_write_timeout"; "rate_limit"]%string.
Definition upstream_keys : list (list string * list string) :=
  [([], ["bind"; "name"; "server"]); (["server"], ["addr"; "fail_timeout"; "fall_times"; "rise_times"; "weight"])]%string.
(* below: the same parts, one key further down *)
Definition below (k : string) (l : list (list string * list string)) : list (list string * list string) := map (fun x => (k :: fst x, snd x)) l.
Definition location_keys : list (list string * list string) :=
  [([], app ["file_server"; "headers"; "is_ws"; "method"; "root"; "rule"; "static_response"; "try_paths"; "up_name"; "upstream"] common_keys);
   (["file_server"], ["browse"; "cache_time"; "comm"; "cors"; "default_mimetype"; "disable_compress"; "ext_mimetype"; "hide"; "index"; "path404";
                      "precompressed"; "prefix"; "robots"; "root"; "status"]);
   (["file_server"; "comm"], common_keys);
   (["rule"], ["client_ip"; "host"; "method"; "path"; "remote_ip"; "scheme"])]%string ++ below "upstream" upstream_keys.
Definition server_keys : list (list string * list string) :=
  [([], app ["bind_addr"; "bind_mode"; "bind_ssl"; "cert"; "headers"; "key"; "location"; "root"; "up_name"; "upstream"] common_keys)]%string
  ++ below "location" location_keys ++ below "upstream" upstream_keys.
Definition file_keys : list (list string * list string) :=
  [([], ["control"; "default_level"; "disable_control"; "disable_stdout"; "http"; "pidfile"; "proxy"; "stream"]);
   (["proxy"], ["bind"; "center_addr"; "cert"; "domain"; "flag"; "key"; "map_cert"; "map_http_bind"; "map_https_bind"; "map_key"; "map_proxy_bind"; "map_tcp_bind";
                "mappings"; "password"; "server"; "server_id"; "tc"; "ts"; "two_way_tls"; "udp_bind"; "username"]);
   (["proxy"; "mappings"], ["domain"; "headers"; "local_addr"; "mode"; "name"]);
   (["http"], app ["limit_req_zone"; "server"; "upstream"] common_keys);
   (["stream"], ["server"; "upstream"])]%string
  ++ below "http" (below "server" server_keys ++ below "upstream" upstream_keys)
  ++ below "stream" (below "server" server_keys ++ below "upstream" upstream_keys).
(* the keys that lead to a place, whatever the numbers in lists *)
Definition way (p : list step) : list text := flat_map (fun s => match s with Key k => [k] | At _ => [] end) p.
(* the keys that must be there, with the part of the file they belong to *)
Definition needed_keys : list (list string * string) :=
  flat_map (fun sec : string => let s := [sec; "server"%string] in
      [(s, "bind_addr"%string); (s, "bind_ssl"%string); (app s ["location"%string], "rule"%string)] ++
      flat_map (fun u => [(u, "name"%string); (app u ["server"%string], "addr"%string)]) [[sec; "upstream"%string]; app s ["upstream"%string]; app s ["location"%string; "upstream"%string]])
    ["http"%string; "stream"%string]
  ++ [(["proxy"%string; "mappings"%string], "name"%string); (["proxy"%string; "mappings"%string], "mode"%string)].
(* the first entry of a table for a key, changed; an entry left out *)
Fixpoint change (f : val -> val) (k : text) (t : list (text * val)) : list (text * val) :=
  match t with [] => [] | (k0, x) :: t' => if leqb k k0 then (k0, f x) :: t' else (k0, x) :: change f k t' end.
Definition leave_out (k : text) (t : list (text * val)) : list (text * val) := filter (fun kv => negb (leqb k (fst kv))) t.
Fixpoint change_nth (f : val -> val) (i : nat) (l : list val) : list val :=
  match l, i with [], _ => [] | x :: l', O => f x :: l' | x :: l', S i' => x :: change_nth f i' l' end.
(* the file without the key k in the table at place p *)
Fixpoint without (k : text) (v : val) (p : list step) : val :=
  match p with
  | [] => match v with VTab t => VTab (leave_out k t) | _ => v end
  | Key k0 :: p' => match v with VTab t => VTab (change (fun x => without k x p') k0 t) | _ => v end
  | At i :: p' => match v with VList l => VList (change_nth (fun x => without k x p') i l) | _ => v end
  end.
(* the keys that hold a list, those that hold a table, and those that hold a table or nothing *)
Definition holds_list (w : list string) (k : string) : bool :=
  existsb (String.eqb k) ["location"; "upstream"; "headers"; "mappings"; "hide"; "index"; "precompressed"]%string
  || String.eqb k "server" && negb (String.eqb (List.last w EmptyString) "proxy").
Definition holds_table (k : string) : bool := existsb (String.eqb k) ["log_format"; "log_names"; "match_names"; "limit_req_zone"; "ext_mimetype"; "comm"]%string.
Definition may_hold_table (k : string) : bool := existsb (String.eqb k) ["proxy"; "http"; "stream"; "file_server"]%string.
Definition right_kind (w : list string) (k : string) (x : val) : Prop :=
  if holds_list w k then exists l, x = VList l
  else if holds_table k then exists t, x = VTab t
  else if may_hold_table k then x = VNull \/ exists t, x = VTab t
  else True.
(* the keys whose value may be left empty (the null of yaml), which means the same as leaving
   them out; the others, if they are there, must have a value *)
Definition may_be_null (w : list string) (k : string) : bool :=
  let part := List.last w EmptyString in
  (existsb (String.eqb k) ["default_level"; "http"; "proxy"; "stream"; "center_addr"; "cert"; "key"; "map_cert"; "map_key"; "map_http_bind"; "map_https_bind"; "map_proxy_bind";
     "map_tcp_bind"; "username"; "password"; "udp_bind"; "local_addr"; "access_log"; "error_log"; "allow_ip"; "deny_ip"; "limit_req"; "max_read_buf"; "rate_limit"; "proxy_url";
     "client_ka_timeout"; "client_read_timeout"; "client_timeout"; "client_write_timeout"; "proxy_connect_timeout"; "proxy_read_timeout"; "proxy_timeout"; "proxy_write_timeout";
     "root"; "file_server"; "method"; "static_response"; "try_paths"; "cache_time"; "path404"; "robots"; "client_ip"; "remote_ip"; "host"; "path"; "scheme"]
   || existsb (String.eqb k) ["bind"; "server"] && String.eqb part "proxy"
   || String.eqb k "domain" && negb (String.eqb part "mappings")
   || String.eqb k "up_name" && String.eqb part "location")%string.
