(* What the theorems about cached texts, rewriting and rule texts refer to. *)
From Verif Require Import Base Text TextOps ConfModel AddrModel RouteModel ConfSpec RwModel.
Open Scope N_scope.

(* the texts a call has a reason to remember: its own, or, for a path, the words in it *)
Definition texts {Q} (o : rop (Q := Q)) : list text :=
  match o with
  | RFormat _ _ f => [f]
  | RRegex p => [p]
  | RPath _ _ f => trim f :: split_by_whitespace (trim f)
  | RStatic s => [s]
  end.
(* everything that is remembered *)
Definition remembered {E R} (c : caches (E := E) (R := R)) : list (list text) :=
  map fst (k_re c) :: k_static c :: map (fun e => map fst (snd e)) (k_pat c).
(* texts with a blank between them *)
Fixpoint blank_joined (l : list text) : text :=
  match l with [] => [] | [x] => x | x :: l' => x ++ [32] ++ blank_joined l' end.
(* a word of try_paths that is a path *)
Definition is_path (w : text) : Prop := match w with c :: _ => c <> 61 | [] => True end.
(* the sets of methods and schemes are sets *)
Definition proper (m : matcher) : Prop :=
  match m_method m with Some l => NoDup l | None => True end /\ match m_scheme m with Some l => NoDup l | None => True end.
