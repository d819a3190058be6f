(* A configuration as it is shown by /now, and loading it again.

   option.rs:695-703 ConfigOption::after_load_option is applied by arg.rs:392-570 to
   every configuration that is read; control/server.rs:117-126 shows the option as it is
   after that.  The http section only; that the text shown means the option shown is
   assumed here (which values survive the text is C174's matter). *)
From Coq Require Import String.
From Verif Require Import Base Text TextOps AddrModel ConfModel RouteModel InhModel.
Open Scope N_scope.

(* reverse/http.rs:117-119: the format that is there when none is given *)
Definition main_format : text := txt "{d(%Y-%m-%d %H:%M:%S)} {client_ip} {l} {url} path:{path} query:{query} host:{host} status: {status} {up_status} referer: {referer} user_agent: {user_agent} cookie: {cookie}".
Section Load.
  Context {V : Type} (as_err : V -> V).
  (* reverse/http.rs:117-119 *)
  Definition with_main (c : @common V) : common :=
    if has leqb (txt "main") (c_log_format c) then c
    else Common (c_set c) (insert leqb (txt "main") main_format (c_log_format c)) (c_log_names c) (c_match c).
  (* reverse/http.rs:116-125; the zones it registers are in LimModel *)
  Definition load_http (h : @ihttp V) : ihttp := fill_http as_err (IHttp (with_main (h_comm h)) (h_upstream h) (h_servers h)).
End Load.
