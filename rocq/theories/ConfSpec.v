(* What the configuration values are expected to mean, without the parsers. *)
From Coq Require Import String.
From Verif Require Import Base Text TextOps ConfModel.
Open Scope N_scope.

(* the unit letters of a size and the power of 1024 they stand for *)
Definition letters : list (text * N) :=
  [(txt "k", 1); (txt "K", 1); (txt "m", 2); (txt "M", 2); (txt "g", 3); (txt "G", 3);
   (txt "t", 4); (txt "T", 4); (txt "p", 5); (txt "P", 5)].

(* the values a header list holds under name k, and the rest of it *)
Definition values (same : text -> text -> bool) (k : text) (h : headers) : list text :=
  map snd (filter (fun kv => same k (fst kv)) h).
Definition others (same : text -> text -> bool) (k : text) (h : headers) : headers :=
  filter (fun kv => negb (same k (fst kv))) h.
(* the values under the rule's name after a rule with this operator has been
   applied, given the values before *)
Definition after_rule (o : hoper) (v : text) (before : list text) : list text :=
  match o with
  | OAdd => before ++ [v]
  | ODel => []
  | ODefault => match before with [] => [v] | _ => before end
  | OReplace => [v]
  end.
(* a word without blanks and quotes *)
Definition plain (s : text) : bool := match s with [] => false | _ => forallb is_plain s end.
(* the headers that have none of the given names *)
Definition untouched (same : text -> text -> bool) (names : list text) (h : headers) : headers :=
  filter (fun kv => forallb (fun k => negb (same k (fst kv))) names) h.
(* How a word may be written in a header rule: bare, when it has neither blanks nor
   quotes, or between quotes of a kind it does not contain. *)
Definition written (w t : text) : Prop :=
  (t = w /\ plain w = true) \/ (exists q, (q = 34 \/ q = 39) /\ ~ In q w /\ t = q :: w ++ [q]).
(* A line made of the given words, separated by blanks. *)
Inductive line : list text -> text -> Prop :=
| line_one w t : written w t -> line [w] t
| line_more w t b ws s : written w t -> b <> [] -> Forall (fun c => is_ws c = true) b -> line ws s -> line (w :: ws) (t ++ b ++ s).
(* The operator an operator word stands for. *)
Definition operators : list (text * hoper) := [(txt "+", OAdd); (txt "-", ODel); (txt "?", ODefault)].

(* The unit a duration is written in, and its factor: the first ending that fits.
   Seconds need no multiplication. *)
Fixpoint find_unit (us : list (text * N)) (s : text) : option (text * N) :=
  match us with
  | [] => None
  | (u, m) :: us' => if ends_with u s then Some (u, m) else find_unit us' s
  end.
Definition written_unit : text -> option (text * N) :=
  find_unit [(txt "ms", 1000000); (txt "h", 3600); (txt "min", 60)].
