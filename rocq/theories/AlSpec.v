(* The usual line of an access log, independently of the code. *)
From Coq Require Import String.
From Verif Require Import Base Text TextOps LogModel.
Open Scope N_scope.

(* what is known of a request, or nothing *)
Definition told (o : option text) : text := match o with Some t => t | None => [] end.
(* the address of the client *)
Definition client (q : req) : text := match rq_client_ip q with Some t => t | None => txt "???" end.
(* the line the format called main promises (reverse/http.rs:117-119): when, who, at which
   level, what was asked for, how it was answered, and what the client said of itself *)
Definition promised (time level status up_status : text) (q : req) : text :=
  time ++ txt " " ++ client q ++ txt " " ++ level ++ txt " " ++ List.concat (rq_url q) ++
  txt " path:" ++ rq_path q ++ txt " query:" ++ told (rq_query q) ++ txt " host:" ++ told (rq_host q) ++
  txt " status: " ++ status ++ txt " " ++ up_status ++
  txt " referer: " ++ told (rq_referer q) ++ txt " user_agent: " ++ told (rq_agent q) ++ txt " cookie: " ++ told (rq_cookie q).
(* the characters of a request are characters *)
Definition proper_req (q : req) : Prop :=
  forallb scalar (client q) = true /\ forallb scalar (List.concat (rq_url q)) = true /\ forallb scalar (rq_path q) = true /\
  forallb scalar (told (rq_query q)) = true /\ forallb scalar (told (rq_host q)) = true /\ forallb scalar (told (rq_referer q)) = true /\
  forallb scalar (told (rq_agent q)) = true /\ forallb scalar (told (rq_cookie q)) = true.
(* a character that occurs nowhere in a request *)
Definition absent (c : N) (q : req) : Prop :=
  no_char c (client q) = true /\ no_char c (List.concat (rq_url q)) = true /\ no_char c (rq_path q) = true /\
  no_char c (told (rq_query q)) = true /\ no_char c (told (rq_host q)) = true /\ no_char c (told (rq_referer q)) = true /\
  no_char c (told (rq_agent q)) = true /\ no_char c (told (rq_cookie q)) = true.
(* no blanks in what is asked for, as HTTP requires *)
Definition asked_plainly (q : req) : Prop :=
  no_char 32 (client q) = true /\ no_char 32 (List.concat (rq_url q)) = true /\ no_char 32 (rq_path q) = true /\
  no_char 32 (told (rq_query q)) = true /\ no_char 32 (told (rq_host q)) = true.
(* the small letters are letters *)
Definition latin (alpha alnum : N -> bool) : Prop := forall c, 97 <= c <= 122 -> alpha c = true /\ alnum c = true.
