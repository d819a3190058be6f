(* What a log pattern means, independent of parser and writers. *)
From Coq Require Import String.
From Verif Require Import Base Text TextOps LogModel.
Open Scope N_scope.

(* Output: characters, and changes of style in between. *)
Inductive ch := C (c : N) | S_ (s : style).
Definition chars_of (t : text) : list ch := map C t.
Definition wire (l : list ch) : list item := flat_map (fun x => match x with C c => ib (utf8_char c) | S_ s => [IS s] end) l.
Fixpoint width (l : list ch) : N := match l with [] => 0 | C _ :: l' => 1 + width l' | S_ _ :: l' => width l' end.
(* the first M characters (changes of style take no room) *)
Fixpoint cut (M : N) (l : list ch) : list ch :=
  match l with
  | [] => []
  | S_ s :: l' => S_ s :: cut M l'
  | C c :: l' => if M =? 0 then cut 0 l' else C c :: cut (M - 1) l'
  end.
Definition pad (right : bool) (fill m : N) (l : list ch) : list ch :=
  let f := repeat (C fill) (N.to_nat (m - width l)) in if right then f ++ l else l ++ f.
(* The documented meaning of a format specification: cut to the maximum, then pad to the
   minimum. *)
Definition documented (p : params) (l : list ch) : list ch :=
  let l := match p_max p with Some M => cut M l | None => l end in
  match p_min p with Some m => pad (p_right p) (p_fill p) m l | None => l end.
(* What the code does: pad first, then cut. *)
Definition adjusted (p : params) (l : list ch) : list ch :=
  let l := match p_min p with Some m => pad (p_right p) (p_fill p) m l | None => l end in
  match p_max p with Some M => cut M l | None => l end.
Definition wr_text (x : wr) : text := match x with WAll l => List.concat l | WOnce t => t end.

(* the style of the lines of a level: intense red, yellow, green, cyan, none *)
Definition shown_style (l : level) : option style :=
  match l with Error => Some (Style (Some 1) true) | Warn => Some (Style (Some 3) false) | Info => Some (Style (Some 2) false)
             | Debug => None | Trace => Some (Style (Some 6) false) end.
Section Shown.
  Context (now : text -> bool -> option (list text)) (r : record) (adj : params -> list ch -> list ch).
  (* no color, not intense *)
  Definition plain_style : style := Style None false.
  Definition tag (o : option style) : list ch := match o with Some s => [S_ s] | None => [] end.
  (* what a chunk shows; None: a date format is not valid *)
  Fixpoint shown (c : chunk) : option (list ch) :=
    let all := fix all (l : list chunk) : option (list ch) :=
      match l with [] => Some [] | c :: l' => match shown c, all l' with Some a, Some b => Some (a ++ b) | _, _ => None end end in
    match c with
    | CText t => Some (chars_of t)
    | CErr e => Some (chars_of (txt "{ERROR: " ++ e ++ txt "}"))
    | CField f p => Some (adj p (chars_of (wr_text (field_out r f))))
    | CTime fmt utc p => match now fmt utc with Some l => Some (adj p (chars_of (List.concat l))) | None => None end
    | CAlign l p => match all l with Some a => Some (adj p a) | None => None end
    | CHigh l p => match all l with Some a => Some (adj p (tag (shown_style (rc_level r)) ++ a ++ tag (match shown_style (rc_level r) with Some _ => Some plain_style | None => None end))) | None => None end
    end.
  Fixpoint shown_all (l : list chunk) : option (list ch) :=
    match l with [] => Some [] | c :: l' => match shown c, shown_all l' with Some a, Some b => Some (a ++ b) | _, _ => None end end.
End Shown.

(* ---- the grammar of patterns (mod.rs:5-31) ---- *)
Inductive tok := TC (c : N) | TA (name : text) (args : list (list tok)) (par : params) | TE (e : text).
Fixpoint toks (p : piece) : list tok :=
  match p with
  | PText t => map TC t
  | PArg nm ar par => [TA nm (map (fun a => flat_map toks a) ar) par]
  | PErr e => [TE e]
  end.
Definition toks_all (l : list piece) : list tok := flat_map toks l.

(* a number in decimal, leading zeros allowed *)
Definition is_number (s : text) (n : N) : Prop := s <> [] /\ forallb is_digit s = true /\ digits 0 s = Some n /\ n < 2 ^ 64.
Definition is_opt_number (s : text) (o : option N) : Prop := match o with None => s = [] | Some n => is_number s n end.
(* [':' [[fill] align] [min_width] ['.' max_width]] *)
Inductive spec_prints : params -> text -> Prop :=
| sp_none : spec_prints (Params 32 false None None) []
| sp_plain mn mx a b : (mn <> None \/ mx <> None) -> is_opt_number a mn -> is_opt_number b mx -> spec_prints (Params 32 false mn mx) (58 :: a ++ match mx with None => [] | Some _ => 46 :: b end)
| sp_align right mn mx a b : is_opt_number a mn -> is_opt_number b mx -> spec_prints (Params 32 right mn mx) (58 :: (if right then 62 else 60) :: a ++ match mx with None => [] | Some _ => 46 :: b end)
| sp_fill f right mn mx a b : is_opt_number a mn -> is_opt_number b mx -> spec_prints (Params f right mn mx) (58 :: f :: (if right then 62 else 60) :: a ++ match mx with None => [] | Some _ => 46 :: b end).
Section Grammar.
  Context (alpha alnum : N -> bool).
  Definition is_ident (n : text) : Prop :=
    match n with [] => True | c :: n' => (alpha c || (c =? 95)) = true /\ forallb (fun d => alnum d || (d =? 95)) n' = true end.
  (* s is a way to write the tokens l; inarg: inside the parentheses of an argument, where
     a closing parenthesis cannot be doubled *)
  Inductive prints : bool -> list tok -> text -> Prop :=
  | pr_nil i : prints i [] []
  | pr_plain i c l s : special c = false -> prints i l s -> prints i (TC c :: l) (c :: s)
  | pr_double i c l s : bracket c = true -> (i = true -> c <> c_rp) -> prints i l s -> prints i (TC c :: l) (c :: c :: s)
  | pr_escape i c l s : special c = true -> prints i l s -> prints i (TC c :: l) (c_bs :: c :: s)
  | pr_format i nm ar par sa sp l s : is_ident nm -> args_print ar sa -> spec_prints par sp -> prints i l s ->
      prints i (TA nm ar par :: l) (c_lb :: nm ++ sa ++ sp ++ c_rb :: s)
  with args_print : list (list tok) -> text -> Prop :=
  | ap_nil : args_print [] []
  | ap_cons a ar s s' : prints true a s -> args_print ar s' -> args_print (a :: ar) (c_lp :: s ++ c_rp :: s').
  (* Unicode: the characters of the syntax are not letters or digits *)
  Definition syntax_ok : Prop := forall c, In c [c_lb; c_rb; c_lp; c_rp; c_bs; 58] -> alpha c = false /\ alnum c = false.
End Grammar.

(* ---- what the documentation says a formatter shows (mod.rs:37-75; config/reverse.toml
   for the fields of a request) ---- *)
Definition newline : text := [10].
Section Doc.
  Context (r : record).
  Definition if_missing (o : option text) : text := match o with Some t => t | None => txt "???" end.
  Definition of_request (f : req -> text) : text := match rc_req r with Some q => f q | None => txt "???" end.
  Definition or_empty (o : option text) : text := match o with Some t => t | None => [] end.
  Definition level_word : text :=
    match rc_level r with Error => txt "ERROR" | Warn => txt "WARN" | Info => txt "INFO" | Debug => txt "DEBUG" | Trace => txt "TRACE" end.
  Definition values : list (text * text) := [
    (txt "f", if_missing (rc_file r)); (txt "file", if_missing (rc_file r));
    (txt "l", level_word); (txt "level", level_word);
    (txt "L", match rc_line r with Some n => show n | None => txt "???" end); (txt "line", match rc_line r with Some n => show n | None => txt "???" end);
    (txt "m", List.concat (rc_message r)); (txt "message", List.concat (rc_message r));
    (txt "M", if_missing (rc_module r)); (txt "module", if_missing (rc_module r));
    (txt "P", show (rc_pid r)); (txt "pid", show (rc_pid r)); (txt "n", newline);
    (txt "t", rc_target r); (txt "target", rc_target r);
    (txt "T", match rc_thread r with Some t => t | None => txt "unnamed" end); (txt "thread", match rc_thread r with Some t => t | None => txt "unnamed" end);
    (txt "I", rc_thread_id r); (txt "thread_id", rc_thread_id r); (txt "i", rc_thread_id r); (txt "tid", rc_thread_id r);
    (txt "url", of_request (fun q => List.concat (rq_url q))); (txt "path", of_request rq_path); (txt "query", of_request (fun q => or_empty (rq_query q)));
    (txt "host", of_request (fun q => or_empty (rq_host q))); (txt "referer", of_request (fun q => or_empty (rq_referer q)));
    (txt "user_agent", of_request (fun q => or_empty (rq_agent q))); (txt "cookie", of_request (fun q => or_empty (rq_cookie q)));
    (txt "status", match rc_status r with Some l => List.concat l | None => txt "???" end)].
  (* client_ip of a request; with no request the code writes nothing *)
  Definition value (nm : text) : option text :=
    match lookup leqb nm values with
    | Some v => Some v
    | None => if leqb nm (txt "client_ip") then match rc_req r with Some q => Some (if_missing (rq_client_ip q)) | None => None end else None
    end.
  (* what tokens show: text itself, fields with their value, an unnamed group its content;
     None for anything else *)
  Context (adj : params -> list ch -> list ch).
  Fixpoint shows (t : tok) : option (list ch) :=
    let all := fix all (l : list tok) : option (list ch) :=
      match l with [] => Some [] | t :: l' => match shows t, all l' with Some a, Some b => Some (a ++ b) | _, _ => None end end in
    match t with
    | TC c => Some [C c]
    | TA nm [] par => match value nm with Some v => Some (adj par (chars_of v)) | None => None end
    | TA [] [a] par => match all a with Some v => Some (adj par v) | None => None end
    | _ => None
    end.
  Fixpoint shows_all (l : list tok) : option (list ch) :=
    match l with [] => Some [] | t :: l' => match shows t, shows_all l' with Some a, Some b => Some (a ++ b) | _, _ => None end end.
End Doc.
(* ---- dates that cannot be shown ---- *)
Section Dates.
  Context (now : text -> bool -> option (list text)).
  (* the text of a format: anything but text in it is replaced by a message *)
  Definition format_part (p : piece) : text :=
    match p with PText t => t | PArg _ _ _ => txt "{ERROR: unexpected formatter}" | PErr e => txt "{ERROR: " ++ e ++ txt "}" end.
  (* format and zone (utc or not) of the arguments of a date *)
  Inductive dated : list (list piece) -> text -> bool -> Prop :=
  | dt_none : dated [] (txt "%+") false
  | dt_format a : dated [a] (flat_map format_part a) false
  | dt_utc a more : dated [a; PText (txt "utc") :: more] (flat_map format_part a) true
  | dt_local a more : dated [a; PText (txt "local") :: more] (flat_map format_part a) false.
  (* a date whose format is not valid, or a group that contains one *)
  Inductive bad_date : piece -> Prop :=
  | bd_date nm ar par f u : In nm [txt "d"; txt "date"] -> dated ar f u -> now f u = None -> bad_date (PArg nm ar par)
  | bd_group nm a par p : In nm [[]; txt "h"; txt "highlight"] -> In p a -> bad_date p -> bad_date (PArg nm [a] par).
End Dates.
(* no format specification has a minimum above its maximum *)
Definition sane (p : params) : bool := match p_min p, p_max p with Some m, Some M => m <=? M | _, _ => true end.
Fixpoint sane_tok (t : tok) : bool := match t with TA _ ar par => sane par && forallb (fun a => forallb sane_tok a) ar | _ => true end.
(* the documented style of a level: intense red (1), red, blue (4), none *)
Definition documented_style (l : level) : option style :=
  match l with Error => Some (Style (Some 1) true) | Warn => Some (Style (Some 1) false) | Info => Some (Style (Some 4) false) | _ => None end.

(* the mistakes in the arguments of mdc, and how each is named *)
Inductive mdc_mistake : list (list piece) -> text -> Prop :=
| mm_none : mdc_mistake [] (txt "missing MDC key")
| mm_many a b c l : mdc_mistake (a :: b :: c :: l) (txt "expected at most two arguments")
| mm_key_error e more rest : (length rest <= 1)%nat -> mdc_mistake ((PErr e :: more) :: rest) e
| mm_key_empty rest : (length rest <= 1)%nat -> mdc_mistake ([] :: rest) (txt "invalid MDC key")
| mm_key_field nm ar par more rest : (length rest <= 1)%nat -> mdc_mistake ((PArg nm ar par :: more) :: rest) (txt "invalid MDC key")
| mm_default_error t k e more : mdc_mistake [PText t :: k; PErr e :: more] e
| mm_default_empty t k : mdc_mistake [PText t :: k; []] (txt "invalid MDC default")
| mm_default_field t k nm ar par more : mdc_mistake [PText t :: k; PArg nm ar par :: more] (txt "invalid MDC default").
