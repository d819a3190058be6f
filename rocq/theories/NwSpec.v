(* When two locations have the same settings. *)
From Coq Require Import String.
From Verif Require Import Base Text TextOps AddrModel ConfModel RouteModel InhModel.
Open Scope N_scope.

Section Spec.
  Context {V : Type}.
  (* location l of server sv of an http section *)
  Definition at_loc (h : @ihttp V) (i j : nat) (sv : iserver) (l : iloc) : Prop :=
    nth_error (h_servers h) i = Some sv /\ nth_error (v_locs sv) j = Some l.
  (* the same settings; the same log formats, log names and named rules *)
  Definition same_common (a b : @common V) : Prop :=
    (forall k, c_set a k = c_set b k) /\ (forall n, lookup leqb n (c_log_format a) = lookup leqb n (c_log_format b)) /\
    (forall n, lookup leqb n (c_log_names a) = lookup leqb n (c_log_names b)) /\ (forall n, lookup leqb n (c_match a) = lookup leqb n (c_match b)).
  (* the log formats of one level have different names, and so do its log names (they are maps) *)
  Definition distinct (a : @common V) : Prop := NoDup (map fst (c_log_format a)) /\ NoDup (map fst (c_log_names a)).
  Definition all_distinct (h : @ihttp V) : Prop :=
    distinct (h_comm h) /\ forall sv, In sv (h_servers h) -> distinct (v_comm sv) /\ forall l, In l (v_locs sv) -> distinct (i_comm l).
  (* the first of three levels that has a value *)
  Definition nearest {A} (l s h : option A) : option A :=
    match l with Some v => Some v | None => match s with Some v => Some v | None => h end end.
  (* the rule of name n for a location *)
  Definition rule_named (h : @ihttp V) (sv : @iserver V) (l : @iloc V) (n : text) : option matcher :=
    nearest (lookup leqb n (c_match (i_comm l))) (lookup leqb n (c_match (v_comm sv))) (lookup leqb n (c_match (h_comm h))).
End Spec.
