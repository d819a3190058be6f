(* Header lines of one name, and the others. *)
From Verif Require Import Base Text TextOps.
Open Scope N_scope.

Section Lines.
  Context (same : text -> text -> bool).
  Definition named (k : text) (h : list (text * text)) : list text := flat_map (fun kv => if same k (fst kv) then [snd kv] else []) h.
  Definition others (k : text) (h : list (text * text)) : list (text * text) := flat_map (fun kv => if same k (fst kv) then [] else [kv]) h.
End Lines.
