(* CIDR and listen lists, independently of the code. *)
From Verif Require Import Base Text TextOps AddrModel.
Open Scope N_scope.

(* x and y, numbers of w bits, agree on their first n bits *)
Definition agree (w n x y : N) : Prop := forall i, i < n -> N.testbit x (w - 1 - i) = N.testbit y (w - 1 - i).
(* a belongs to the network ip/n *)
Definition cidr (ip : ipaddr) (n : N) (a : ipaddr) : Prop :=
  match ip, a with
  | V4 y, V4 x => agree 32 n x y
  | V6 y, V6 x => agree 128 n x y
  | _, _ => False
  end.
(* the text of a listen address or IP address has none of the separators *)
Definition clean (s : text) : Prop :=
  s <> [] /\ no_char 44 s = true /\ no_char 45 s = true /\ no_char 32 s = true.
