(* What a file-server command line says about the files that are served. *)
From Coq Require Import String.
From Verif Require Import Base Text TextOps AddrModel ArgModel OpModel OpSpec FileModel FileSpec RouteModel.
Open Scope N_scope.

(* the directory the options name: the value of --root, or the current one, called cwdt *)
Definition serves_dir (os : list occ) (cwdt d : text) : Prop :=
  d <> [] /\ given "root" os = [Some d] \/ d = cwdt /\ (given "root" os = [] \/ given "root" os = [Some []]).
(* an address with this port is listened at, of those of --listen and --listen-ssl *)
Definition at_port (l : list saddr) (r : option (list saddr)) (port : N) : Prop :=
  exists a, (In a l \/ exists m, r = Some m /\ In a m) /\ sa_port a = port.
(* a GET request without conditions for the whole of what is found *)
Definition simple (q : freq) : Prop :=
  q_head q = false /\ q_inm q = None /\ q_ims q = None /\ q_range q = None /\ q_if_range q = None.
(* the request is not for the robots file, or there is none *)
Definition not_robots (os : list occ) (path : text) : Prop := given "robots" os = [] \/ path <> txt "/robots.txt".
(* the file at the end of path p, below directory d *)
Definition file_at (fs : node) (cwd : list text) (d p : text) (ns : list text) (content : bytes) : Prop :=
  exists mt, resolve fs cwd (d ++ p) = Some ns /\ at_names fs ns = Some (File content mt).
