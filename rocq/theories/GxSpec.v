(* Which texts are limit zones, limit_req settings, log settings and sets of proxy kinds, and
   what they mean: grammars, without the parsers. *)
From Coq Require Import String.
From Verif Require Import Base Text TextOps ConfModel CxSpec.
Open Scope N_scope.

(* the pieces of a text between the occurrences of a separator *)
Fixpoint joined (d : N) (ps : list text) : text :=
  match ps with [] => [] | [p] => p | p :: ps' => p ++ d :: joined d ps' end.
Definition pieces (d : N) (s : text) (ps : list text) : Prop := ps <> [] /\ s = joined d ps /\ forall p, In p ps -> ~ In d p.
(* the words of a text: the longest parts without blanks *)
Inductive blank_words : text -> list text -> Prop :=
| bw_none : blank_words [] []
| bw_blank c s ws : is_ws c = true -> blank_words s ws -> blank_words (c :: s) ws
| bw_word w s ws : w <> [] -> (forall c, In c w -> is_ws c = false) -> match s with c :: _ => is_ws c = true | [] => True end ->
    blank_words s ws -> blank_words (w ++ s) (w :: ws).
(* a text key=value, blanks around both parts and anything from a second sign on ignored *)
Definition setting (v k w : text) : Prop := exists p q more, pieces 61 v (p :: q :: more) /\ k = trim p /\ w = trim q.

(* a size, a slash and a duration; anything from a second slash on is ignored *)
Definition rate_parts (s a b : text) : Prop := exists p q more, pieces 47 s (p :: q :: more) /\ a = trim p /\ b = trim q.
Definition fit_size (t : text) (n : N) : Prop := size_text t n /\ n < 2 ^ 64.
Definition fit_dur (t : text) (d : N) : Prop := exists u m, dur_text t u m /\ product u m < 2 ^ 64 /\ d = nanoseconds u m.
Definition big_size (t : text) : Prop := exists n, size_text t n /\ 2 ^ 64 <= n.
Definition big_dur (t : text) : Prop := exists u m, dur_text t u m /\ 2 ^ 64 <= product u m.
Definition rate_text (s : text) (r : N * N) : Prop := exists a b, rate_parts s a b /\ fit_size a (fst r) /\ fit_dur b (snd r).
Definition big_rate (s : text) : Prop := exists a b, rate_parts s a b /\ (big_size a \/ (exists n, fit_size a n) /\ big_dur b).

(* The settings of a zone: its number of entries and its rate, each the last one given. *)
Inductive zone_settings (default_rate : N * N) : list text -> N -> N * N -> Prop :=
| zs_none : zone_settings default_rate [] 0 default_rate
| zs_limit vs v w n n0 r : zone_settings default_rate vs n0 r -> setting v (txt "limit") w -> fit_size w n ->
    zone_settings default_rate (vs ++ [v]) n r
| zs_rate vs v w n r r0 : zone_settings default_rate vs n r0 -> setting v (txt "rate") w -> rate_text w r ->
    zone_settings default_rate (vs ++ [v]) n r.
(* a zone: its key and its settings *)
Definition zone_text (default_rate : N * N) (s : text) (z : lzone) : Prop :=
  exists key vs n r, blank_words s (key :: vs) /\ zone_settings default_rate vs n r /\ z = LZone key n (fst r) (snd r).
(* a setting with a number too large for the machine *)
Definition big_setting (v : text) : Prop :=
  (exists w, setting v (txt "limit") w /\ big_size w) \/ (exists w, setting v (txt "rate") w /\ big_rate w).

(* A limit_req setting: the zone and the burst, each the last one given; only single spaces
   separate them. *)
Inductive lreq_settings : list text -> text -> N -> Prop :=
| ls_none : lreq_settings [] [] 0
| ls_zone vs v w z b : lreq_settings vs z b -> setting v (txt "zone") w -> lreq_settings (vs ++ [v]) w b
| ls_burst vs v w z b n : lreq_settings vs z b -> setting v (txt "brust") w -> count w n -> lreq_settings (vs ++ [v]) z n.
Definition lreq_text (s : text) (r : lreq) : Prop := exists vs, pieces 32 s vs /\ lreq_settings vs (lr_zone r) (lr_burst r).

(* the same letter, in whatever case *)
Definition alike (a b : N) : Prop := a = b \/ 65 <= a <= 90 /\ b = a + 32 \/ 65 <= b <= 90 /\ a = b + 32.
Definition levels : list (text * level) :=
  [(txt "error", LError); (txt "warn", LWarn); (txt "info", LInfo); (txt "debug", LDebug); (txt "trace", LTrace)].
Definition level_name (t : text) (l : level) : Prop := exists n, In (n, l) levels /\ Forall2 alike t n.
(* A log setting: a name and a format; a third word is a level when nothing follows it,
   and the level is trace otherwise. *)
Definition log_text (s : text) (l : clog) : Prop :=
  exists more, pieces 32 s (l_name l :: l_format l :: more) /\
    ((exists t, more = [t] /\ level_name t (l_level l)) \/ l_level l = LTrace /\ forall t k, more = [t] -> ~ level_name t k).

(* The proxy kinds: the bits of a set and the words that name them. *)
Definition kind_words (bit : N) : list text :=
  if bit =? 0 then [txt "http"; txt "HTTP"] else if bit =? 1 then [txt "https"; txt "HTTPS"]
  else if bit =? 2 then [txt "socks5"; txt "SOCKS5"] else [].
Definition kinds_text (s : text) (b : N) : Prop :=
  s <> [] /\ exists ws, blank_words s ws /\ forall bit, N.testbit b bit = true <-> exists w, In w ws /\ In w (kind_words bit).
