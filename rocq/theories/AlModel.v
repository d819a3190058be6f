(* The lines of an access log: what Helper::log_acess hands to the log for a request
   (src/helper.rs:230-247, 362-393, called by reverse/location.rs:197), and the line of the
   file (src/helper.rs:187-190). *)
From Coq Require Import String.
From Verif Require Import Base Text TextOps NwModel LogModel.
Open Scope N_scope.

(* what the process adds to a record: name and id of the thread, id of the process *)
Record proc := Proc { pr_thread : option text; pr_tid : text; pr_pid : N }.
(* helper.rs:243 with log/proxy_record.rs:35-41: always level Info, without message, module,
   file, line and target; the request, but no answer *)
Definition access_record (p : proc) (q : req) : record :=
  Record_ Info [] None None None [] (pr_thread p) (pr_tid p) (pr_pid p) (Some q) None.

Section Line.
  Context (now : text -> bool -> option (list text)) (alpha alnum : N -> bool).
  (* reverse/location.rs:188-210 with helper.rs:362-393: the line is made when the request
     has arrived, so the status of the answer, which comes later, is not used; Panic where
     format_req panics *)
  Definition access_message (pattern : text) (p : proc) (q : req) (answer : list text) : res unit bytes :=
    format_req now (access_record p q) alpha alnum pattern.
  (* helper.rs:187-190, log4rs by its documentation: the time, a blank, the message and the
     end of the line *)
  Definition file_line (pattern : text) (p : proc) (q : req) (answer : list text) : res unit bytes :=
    match now (txt "%Y-%m-%d %H:%M:%S") false with
    | Some d => do m <- access_message pattern p q answer ; Ok (utf8 (List.concat d) ++ [32] ++ m ++ [10])
    | None => Panic
    end.
End Line.
