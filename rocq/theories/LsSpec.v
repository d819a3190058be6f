(* Log files, independently of the code. *)
From Coq Require Import String.
From Verif Require Import Base Text TextOps AddrModel ConfModel CxSpec GxSpec RouteModel InhModel LsModel.
Open Scope N_scope.

(* an entry of log_names: a path, or a path, a blank and a level (anything else for a
   level counts as info); what follows another blank is ignored *)
Inductive entry : text -> text -> level -> Prop :=
| e_plain p : no_char 32 p = true -> entry p p LInfo
| e_level p w r x : no_char 32 p = true -> no_char 32 w = true -> r = [] \/ (exists q, r = 32 :: q) ->
    level_name w x \/ x = LInfo /\ (forall l, ~ level_name w l) -> entry (p ++ 32 :: w ++ r) p x.

(* a level lets a line through *)
Inductive at_least : level -> level -> Prop :=
| al_refl l : at_least l l
| al_warn : at_least LWarn LError | al_info l : In l [LError; LWarn] -> at_least LInfo l
| al_debug l : In l [LError; LWarn; LInfo] -> at_least LDebug l | al_trace l : at_least LTrace l.

Section Spec.
  Context {V : Type}.
  (* the settings of a http section: its own, those of its servers and of their locations *)
  Inductive setting_of (h : ihttp (V := V)) : common (V := V) -> Prop :=
  | s_http : setting_of h (h_comm h)
  | s_server s : In s (h_servers h) -> setting_of h (v_comm s)
  | s_location s l : In s (h_servers h) -> In l (v_locs s) -> setting_of h (i_comm l).
  (* the first of the settings that has an entry for a name *)
  Definition first_defined (cs : list (common (V := V))) (n v : text) : Prop :=
    exists pre c post, cs = pre ++ c :: post /\ lookup leqb n (c_log_names c) = Some v /\
      forall x, In x pre -> lookup leqb n (c_log_names x) = None.
End Spec.
