(* Which texts are sizes, durations and header rules, and what they mean: grammars,
   without the parsers. *)
From Coq Require Import String.
From Verif Require Import Base Text TextOps ConfModel ConfSpec.
Open Scope N_scope.

(* the number written by digits *)
Definition value (d : text) : N := fold_left (fun a c => a * 10 + (c - 48)) d 0.
(* a whole number: at least one digit, a plus sign allowed in front *)
Definition numeral (t : text) (n : N) : Prop :=
  exists sign d, t = sign ++ d /\ (sign = [] \/ sign = [43]) /\ d <> [] /\ Forall (fun c => 48 <= c <= 57) d /\ n = value d.
(* a number of at most 64 bits *)
Definition count (t : text) (n : N) : Prop := numeral t n /\ n < 2 ^ 64.
(* a letter that is a unit of sizes, with its power of 1024 *)
Definition power (c k : N) : Prop := In ([c], k) letters.

(* The sizes: a number; a number and unit letters, of which the last one counts; a number
   and any other character, even repeated, which is ignored. *)
Inductive size_text : text -> N -> Prop :=
| size_plain t n : count t n -> size_text t n
| size_unit t n us u k : count t n -> (forall c, In c us -> exists j, power c j) -> power u k ->
    size_text (t ++ us ++ [u]) (n * 1024 ^ k)
| size_other t n c j : count t n -> ~ 48 <= c <= 57 -> (forall k, ~ power c k) -> c < 192 ->
    size_text (t ++ repeat c (S j)) n.

(* the units of durations, the seconds or nanoseconds they count *)
Inductive dunit := Ms | Hour | Minute | Sec | Bare.
Definition ending (u : dunit) : text :=
  match u with Ms => txt "ms" | Hour => txt "h" | Minute => txt "min" | Sec => txt "s" | Bare => [] end.
Definition ends (s e : text) : Prop := exists x, s = x ++ e.
Definition in_unit (s : text) (u : dunit) : Prop :=
  match u with
  | Sec => ends s (txt "s") /\ ~ ends s (txt "ms")
  | Bare => ~ ends s (txt "s") /\ ~ ends s (txt "h") /\ ~ ends s (txt "min")
  | u => ends s (ending u)
  end.
(* x is what is left of s without the ending, however often it is repeated *)
Definition without (s e x : text) : Prop := e = [] /\ x = s \/ e <> [] /\ exists j, s = x ++ List.concat (repeat e j) /\ ~ ends x e.
(* what is not a number counts as one *)
Definition amount (x : text) (n : N) : Prop := count x n \/ n = 1 /\ forall m, ~ count x m.
(* the product the code computes in 64 bits *)
Definition product (u : dunit) (n : N) : N := match u with Ms => n * 1000000 | Hour => n * 3600 | Minute => n * 60 | _ => n end.
(* a text, its unit and its amount *)
Definition dur_text (s : text) (u : dunit) (n : N) : Prop := s <> [] /\ in_unit s u /\ exists x, without s (ending u) x /\ amount x n.
(* the nanoseconds it is taken for; milliseconds are cut to 32 bits *)
Definition nanoseconds (u : dunit) (n : N) : N := match u with Ms => n * 1000000 mod 2 ^ 32 | u => product u n * 1000000000 end.

(* The words of a line: bare words, words in quotes; blanks separate them where needed and a
   quote that is never closed is skipped. *)
Definition quote (q : N) : Prop := q = 34 \/ q = 39.
Definition bare (c : N) : Prop := is_ws c = false /\ ~ quote c.
Inductive line_words : text -> list text -> Prop :=
| words_none : line_words [] []
| words_blank c s ws : is_ws c = true -> line_words s ws -> line_words (c :: s) ws
| words_bare w s ws : w <> [] -> Forall bare w -> match s with c :: _ => ~ bare c | [] => True end -> line_words s ws -> line_words (w ++ s) (w :: ws)
| words_quoted q w s ws : quote q -> ~ In q w -> line_words s ws -> line_words (q :: w ++ q :: s) (w :: ws)
| words_stray q s ws : quote q -> ~ In q s -> line_words s ws -> line_words (q :: s) ws.
(* the operator an operator word stands for: any other word means replace *)
Definition stands (w : text) (o : hoper) : Prop := In (w, o) operators \/ o = OReplace /\ forall o', ~ In (w, o') operators.
(* The words of a header rule. *)
Inductive rule_words : list text -> cheader -> Prop :=
| rule_proxy4 w o k v : stands w o -> rule_words [txt "proxy"; w; k; v] (CHeader o true k v)
| rule_proxy3 k v : rule_words [txt "proxy"; k; v] (CHeader OReplace true k v)
| rule_three w o k v : w <> txt "proxy" -> stands w o -> rule_words [w; k; v] (CHeader o false k v)
| rule_delete k : rule_words [txt "-"; k] (CHeader ODel false k [])
| rule_two k v : k <> txt "-" -> rule_words [k; v] (CHeader OReplace false k v).
