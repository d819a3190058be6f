(* How fast and in which pieces an answer is sent: the settings rate_limit and max_read_buf
   (src/reverse/common.rs:27-30, 165-171), which reverse/location.rs:188-210 and
   plugins/file_server.rs:647-653 put on the body of an answer.  The settings of a location
   and of its file server are those of InhModel, the answers of the file server those of
   FileModel. *)
From Coq Require Import String.
From Verif Require Import Base Text TextOps RouteModel InhModel FileModel.
Open Scope N_scope.

(* what a body is told about its sending: Body::set_max_read_buf and Body::set_rate_limit of
   wenmeng.  Body::only sets neither. *)
Record pace (V : Type) := Pace { p_buf : option V; p_rate : option V }.
Arguments Pace {V} _ _.
Arguments p_buf {V} _.
Arguments p_rate {V} _.
(* an answer is one of the file server, a static text or one that came from a backend (A) *)
Inductive sent (A : Type) := SFiles (a : fresp) | SText (a : A) | SBack (a : A).
Arguments SFiles {A} _.
Arguments SText {A} _.
Arguments SBack {A} _.

Section Ra.
  Context {V A : Type}.
  (* wenmeng's Body as it is made: without limits *)
  Definition unpaced : pace V := Pace None None.
  (* common.rs:165-171 *)
  Definition get_rate_limit (c : common) : option V := match c_set c rate_limit with Some r => Some r | None => None end.
  (* common.rs:74-105 CommonConfig::new, the default of file_server.rs:149-150 *)
  Definition common_new : common (V := V) := Common (fun _ => None) [] [] [].
  (* file_server.rs:149-150: the settings the file server holds itself *)
  Definition file_comm (f : fserver (V := V)) : common (V := V) := match f_comm f with Some c => c | None => common_new end.
  (* file_server.rs:647-653 for the list of a directory; the bodies of files (287-367), of
     robots.txt (529-545) and of errors (238-251) are sent as they are made *)
  Definition body_pace (c : common) (b : fbody) : pace V :=
    match b with
    | BList _ _ => Pace (c_set c max_read_buf) (get_rate_limit c)
    | BNone | BText _ | BFile _ _ _ => unpaced
    end.
  (* what InhModel hands down to the file server goes into its configuration *)
  Definition with_root (f : fserver (V := V)) (c : fcfg) : fcfg :=
    FCfg (InhModel.f_root f) (InhModel.f_prefix f) (f_mime c) (f_ext_mime c) (f_cache c) (f_robots c) (f_path404 c) (f_hide c)
         (f_index c) (f_status c) (f_pre c) (f_nocomp c) (f_browse c) (f_cors c).

  Context (files : fcfg -> freq -> res unit fresp).
  (* location.rs:188-210 with the file server's configuration own, the static text and the
     answer of the backend given; neither of the last two paths mentions the limits
     (static_response.rs:29-33, location.rs:121-187).  The access log is in AlModel. *)
  Definition paced (l : iloc) (own : fcfg) (static : option (res unit A)) (back : option (res unit A)) (q : freq) : res unit (sent A * pace V) :=
    match i_file l with
    | Some f => do a <- files (with_root f own) q ; Ok (SFiles a, body_pace (file_comm f) (s_body a))
    | None =>
      match static with
      | Some r => do a <- r ; Ok (SText a, unpaced)
      | None => match back with
                | Some r => do a <- r ; Ok (SBack a, unpaced)
                | None => Err tt
                end
      end
    end.
End Ra.
