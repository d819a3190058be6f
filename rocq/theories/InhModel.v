(* How settings reach a location: src/reverse/common.rs copy_from_parent,
   reverse/server.rs copy_to_child, reverse/http.rs copy_to_child and after_load_option.
   The value of a setting is opaque (type V); as_err is ConfigLog::as_error
   (common.rs:158-163 applies it to error_log only). *)
From Coq Require Import String.
From Verif Require Import Base Text TextOps AddrModel ConfModel RouteModel.
Open Scope N_scope.

(* common.rs:27-72: the optional settings of CommonConfig *)
Inductive setting :=
  | max_read_buf | rate_limit | client_read_timeout | client_write_timeout | client_timeout | client_ka_timeout
  | proxy_connect_timeout | proxy_read_timeout | proxy_write_timeout | proxy_timeout
  | access_log | error_log | limit_req | allow_ip | deny_ip | domain | proxy_url.
(* common.rs:158-163 *)
Definition is_error_log (k : setting) : bool := match k with error_log => true | _ => false end.
(* the settings copy_from_parent mentions, common.rs:109-126 and 133-149 *)
Definition copied (k : setting) : bool :=
  match k with
  | max_read_buf | rate_limit | client_read_timeout | client_write_timeout | proxy_connect_timeout | client_timeout
  | access_log | error_log | limit_req | allow_ip | deny_ip => true
  | client_ka_timeout | proxy_read_timeout | proxy_write_timeout | proxy_timeout | domain | proxy_url => false
  end.

Section Inh.
  Context {V : Type} (as_err : V -> V).
  (* HashMap<String, _> *)
  Definition tmap (A : Type) := list (text * A).
  (* common.rs:27-72 *)
  Record common := Common { c_set : setting -> option V; c_log_format : tmap text; c_log_names : tmap text; c_match : tmap matcher }.

  (* common.rs:127-132: the parent's entries replace the child's *)
  Definition over {A} (child parent : tmap A) : tmap A := fold_left (fun m kv => insert leqb (fst kv) (snd kv) m) parent child.
  (* common.rs:151-155: the child's entries stay *)
  Definition under {A} (child parent : tmap A) : tmap A :=
    fold_left (fun m kv => if has leqb (fst kv) m then m else insert leqb (fst kv) (snd kv) m) parent child.
  (* common.rs:108-156 *)
  Definition copy_from_parent (child parent : common) : common :=
    Common (fun k => if copied k then match c_set child k with Some v => Some v | None => c_set parent k end else c_set child k)
           (over (c_log_format child) (c_log_format parent)) (over (c_log_names child) (c_log_names parent))
           (under (c_match child) (c_match parent)).
  (* common.rs:158-163 *)
  Definition pre_deal (c : common) : common :=
    Common (fun k => if is_error_log k then option_map as_err (c_set c k) else c_set c k) (c_log_format c) (c_log_names c) (c_match c).

  (* the file server of a location *)
  Record fserver := FServer { f_root : option text; f_prefix : text; f_comm : option common }.
  (* location.rs:28-57 *)
  Record iloc := ILoc { i_comm : common; i_rule : matcher; i_up : option text; i_upstream : list V; i_headers : list cheader;
                        i_root : option text; i_file : option fserver }.
  (* reverse/server.rs:34-61 *)
  Record iserver := IServer { v_comm : common; v_up : text; v_upstream : list V; v_headers : list cheader; v_root : option text; v_locs : list iloc }.
  (* reverse/http.rs:91-104 *)
  Record ihttp := IHttp { h_comm : common; h_upstream : list V; h_servers : list iserver }.

  (* file_server.rs:205-218 *)
  Definition fix_prefix (p : text) : text := match strip_suffix [47] p with Some q => q | None => p end.
  (* reverse/server.rs:97-122 *)
  Definition fill_file (root : text) (rule : matcher) (c : common) (f : fserver) : fserver :=
    FServer (match f_root f with Some r => Some r | None => Some root end)
            (match f_prefix f with [] => fix_prefix (get_path rule) | p => p end) (Some c).
  (* reverse/server.rs:97-122 *)
  Definition fill_location (sv : iserver) (l : iloc) : iloc :=
    let c := pre_deal (copy_from_parent (i_comm l) (v_comm sv)) in
    let rule := match match_name (i_rule l) with
                | Some n => match lookup leqb n (c_match c) with Some m => m | None => i_rule l end
                | None => i_rule l
                end in
    let '(root, file) := match i_root l, v_root sv with
                         | None, Some r => (Some r, option_map (fill_file r rule c) (i_file l))
                         | _, _ => (i_root l, i_file l)
                         end in
    ILoc c rule (Some (v_up sv)) (i_upstream l ++ v_upstream sv) (i_headers l ++ v_headers sv) root file.
  (* reverse/http.rs:128-136 *)
  Definition fill_server (h : ihttp) (sv : iserver) : iserver :=
    let up := v_upstream sv ++ h_upstream h in
    let c := pre_deal (copy_from_parent (v_comm sv) (h_comm h)) in
    let sv := IServer c (v_up sv) up (v_headers sv) (v_root sv) (v_locs sv) in
    IServer c (v_up sv) up (v_headers sv) (v_root sv) (map (fill_location sv) (v_locs sv)).
  (* reverse/http.rs:116-136 *)
  Definition fill_http (h : ihttp) : ihttp :=
    let h := IHttp (pre_deal (h_comm h)) (h_upstream h) (h_servers h) in
    IHttp (h_comm h) (h_upstream h) (map (fill_server h) (h_servers h)).
End Inh.
