(* Routing, independently of the code. *)
From Verif Require Import Base Text TextOps ConfModel AddrModel RouteModel.
Open Scope N_scope.

(* the texts a pattern stands for: * (42) for any text, other characters for themselves *)
Inductive glob : text -> text -> Prop :=
| g_nil : glob [] []
| g_char c p s : c <> 42 -> glob p s -> glob (c :: p) (c :: s)
| g_star t p s : glob p s -> glob (42 :: p) (t ++ s).

(* some network of the list contains the address *)
Definition listed (l : list gate) (a : ipaddr) : Prop := exists g, In g l /\ gate_contains g a = true.

Section RouteSpec.
  Context (regex : text -> option (text -> bool)) (parse_ip : text -> option ipaddr).
  (* the path condition as the code reads it: a pattern with stars is a glob, one
     without is a prefix, and either may also be a regular expression *)
  Definition path_holds (p path : text) : Prop :=
    (In 42 p /\ glob p path) \/ (~ In 42 p /\ exists t, path = p ++ t) \/
    (p <> [] /\ exists re, regex p = Some re /\ re path = true).
  (* all conditions of a rule hold of a request for this path *)
  Definition holds (m : matcher) (path : text) (r : request) : Prop :=
    (forall p, m_path m = Some p -> path_holds p path) /\
    (forall l, m_method m = Some l -> In (r_method r) l) /\
    (forall l, m_scheme m = Some l -> In (r_scheme r) l) /\
    (forall h, m_host m = Some h -> r_host r = Some h) /\
    (forall l, m_client m = Some l -> exists t a, r_ip r = Some t /\ parse_ip t = Some a /\ listed l a).
  (* location number i is the first one whose conditions hold *)
  Definition first_holds (locs : list location) (path : text) (r : request) (i : nat) (l : location) : Prop :=
    nth_error locs i = Some l /\ holds (l_rule l) path r /\
    forall j l', (j < i)%nat -> nth_error locs j = Some l' -> ~ holds (l_rule l') path r.
  (* a client may use a location *)
  Definition permitted (l : location) (a : ipaddr) : Prop :=
    (forall g, l_allow l = Some g -> listed g a) /\ (forall g, l_deny l = Some g -> ~ listed g a).
End RouteSpec.

(* a path that some try path of these locations stands for *)
Definition expansion (fmt : request -> text -> text) (locs : list location) (r : request) (p : text) : Prop :=
  exists l vals fail v q, In l locs /\ l_try l = Some (vals, fail) /\ In v vals /\
    p = fmt (Request q (r_method r) (r_scheme r) (r_host r) (r_ip r)) v.
(* a location that leaves the Host of the requests it handles as it was; rehost: the Host
   they have afterwards *)
Definition leaves_host {W : Type} (rehost : location -> request -> W -> option text) (l : location) : Prop :=
  forall q w, rehost l q w = r_host q.

(* the host a request names *)
Definition requested_host (r : request) : text := match r_host r with Some h => h | None => [] end.
(* the server a host name selects *)
Definition selected (servers : list server) (host : text) (sv : server) : Prop :=
  exists pre post, servers = pre ++ sv :: post /\
    (forall x, In x pre -> s_up_name x <> host /\ host <> []) /\
    (s_up_name sv = host \/ host = [] \/ post = []).
