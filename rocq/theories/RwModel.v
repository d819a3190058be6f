(* Texts that are worked out again and again: the caches of patterns, regular expressions
   and static texts (src/helper.rs), the rewriting of paths (helper.rs:261-319), the text
   of try_paths and of the sets of methods and schemes (reverse/try_paths.rs,
   reverse/matcher.rs), static answers (plugins/static_response.rs), and how locations
   are compared and hashed (reverse/location.rs).

   Parameters: the regex crate (Regex::new and replace_all), the encoder of the log
   patterns (LogModel has it in full; here what it makes of a request), webparse's
   StatusCode, Method and Scheme.  A lock that a panicking thread left poisoned is not
   modelled: nothing under these locks panics. *)
From Coq Require Import String.
From Verif Require Import Base Text TextOps ConfModel AddrModel RouteModel.
Open Scope N_scope.

(* ---- caches ------------------------------------------------------------------------ *)
Section Caches.
  (* E: PatternEncoder, R: Regex, Q: Request *)
  Context {E R Q : Type} (encoder : text -> E) (regex_new : text -> option R)
          (encode : E -> Q -> res unit text) (replace_all : R -> text -> text -> text).

  (* helper.rs:41-43 (one map for each thread), 277-280, 498-500 *)
  Record caches := Caches { k_pat : list (N * list (text * E)); k_re : list (text * option R); k_static : list text }.
  (* the state of a new process *)
  Definition caches0 : caches := Caches [] [] [].
  (* helper.rs:41-43: the map of a thread *)
  Definition pats (t : N) (c : caches) : list (text * E) := match lookup N.eqb t (k_pat c) with Some m => m | None => [] end.
  (* helper.rs:231-240 *)
  Definition get_encoder (t : N) (f : text) (c : caches) : E * caches :=
    let m := pats t c in
    let m' := if has leqb f m then m else insert leqb f (encoder f) m in
    (match lookup leqb f m' with Some e => e | None => encoder f end,
     Caches (insert N.eqb t m' (k_pat c)) (k_re c) (k_static c)).
  (* helper.rs:230-247; Panic: the encoder reports an error *)
  Definition format_req_c (t : N) (q : Q) (f : text) (c : caches) : res unit text * caches :=
    let (e, c') := get_encoder t f c in (match encode e q with Ok s => Ok s | _ => Panic end, c').
  (* helper.rs:275-300 *)
  Definition try_cache_regex (p : text) (c : caches) : option R * caches :=
    match p with
    | [] => (None, c)
    | _ =>
      match lookup leqb p (k_re c) with
      | Some re => (re, c)
      | None =>
        match regex_new p with
        | Some re => (Some re, Caches (k_pat c) (insert leqb p (Some re) (k_re c)) (k_static c))
        | None => (None, c)
        end
      end
    end.
  (* helper.rs:497-510 *)
  Definition get_static_str (s : text) (c : caches) : text * caches :=
    match find (leqb s) (k_static c) with
    | Some v => (v, c)
    | None => (s, Caches (k_pat c) (k_re c) (s :: k_static c))
    end.
  (* helper.rs:261-272 *)
  Definition inner_oper_regex (t : N) (q : Q) (re : R) (vals : list text) (c : caches) : res unit text * caches :=
    match vals with
    | [] => (Panic, c)
    | k :: outs =>
      match format_req_c t q k c with
      | (Ok key, c') =>
        (Ok (match outs with [] => [] | o :: os => replace_all re key o ++ flat_map (fun x => 32 :: replace_all re key x) os end), c')
      | (_, c') => (Panic, c')
      end
    end.
  (* helper.rs:302-319 *)
  Definition format_req_may_regex (t : N) (q : Q) (f : text) (c : caches) : res unit text * caches :=
    let f := trim f in
    if existsb is_ws f then
      match split_by_whitespace f with
      | v :: ((_ :: _) as vals) =>
        match try_cache_regex v c with
        | (Some re, c') => inner_oper_regex t q re vals c'
        | (None, c') => format_req_c t q f c'
        end
      | _ => (Ok [], c)
      end
    else format_req_c t q f c.
  (* plugins/static_response.rs:38-44: a configured text; 29-33: its answer, 200 with
     the formatted text *)
  Definition static_new (s : text) (c : caches) : text * caches := get_static_str s c.
  (* plugins/static_response.rs:29-33 *)
  Definition static_answer (t : N) (q : Q) (body : text) (c : caches) : res unit (N * text) * caches :=
    let (r, c') := format_req_c t q body c in (do s <- r ; Ok (200, s), c').

  (* model only: what the process is asked to do, by which thread, and what came out *)
  Inductive rop := RFormat (t : N) (q : Q) (f : text) | RRegex (p : text) | RPath (t : N) (q : Q) (f : text) | RStatic (s : text).
  (* model only *)
  Inductive rout := OText (r : res unit text) | ORegex (r : option R).
  (* model only: one call *)
  Definition rstep (o : rop) (c : caches) : rout * caches :=
    match o with
    | RFormat t q f => let (r, c') := format_req_c t q f c in (OText r, c')
    | RRegex p => let (r, c') := try_cache_regex p c in (ORegex r, c')
    | RPath t q f => let (r, c') := format_req_may_regex t q f c in (OText r, c')
    | RStatic s => let (r, c') := get_static_str s c in (OText (Ok r), c')
    end.
  (* model only: the calls of a whole run, in the order the locks were taken *)
  Fixpoint rrun (os : list rop) (c : caches) : list rout * caches :=
    match os with
    | [] => ([], c)
    | o :: os' => let (r, c1) := rstep o c in let (rs, c2) := rrun os' c1 in (r :: rs, c2)
    end.
End Caches.

(* ---- try_paths ----------------------------------------------------------------------- *)
Section TryPaths.
  (* StatusCode::from_u16 accepts the code; Display of StatusCode *)
  Context (status_ok : N -> bool) (show_status : N -> text).
  (* try_paths.rs:27-30 *)
  Record tries := Tries { y_list : list text; y_status : N }.
  (* try_paths.rs:45-56: one word *)
  Definition try_word (y : tries) (v : text) : tries :=
    if starts_with [61] v then
      match parse_uint u16_max (trim_start_p (fun c => c =? 61) v) with
      | Some n => if status_ok n then Tries (y_list y) n else y
      | None => y
      end
    else Tries (y_list y ++ [v]) (y_status y).
  (* try_paths.rs:38-60 *)
  Definition parse_tries (s : text) : tries := fold_left try_word (split_by_whitespace s) (Tries [] 404).
  (* slice join *)
  Fixpoint joined (l : list text) : text :=
    match l with [] => [] | [x] => x | x :: l' => x ++ 32 :: joined l' end.
  (* try_paths.rs:62-66 *)
  Definition show_tries (y : tries) : text := joined (y_list y) ++ 32 :: show_status (y_status y).
End TryPaths.

(* ---- sets of methods or schemes ------------------------------------------------------ *)
Section Sets.
  (* M: webparse Method or Scheme, with its FromStr, Display and Eq *)
  Context {M : Type} (parse : text -> option M) (disp : M -> text) (meq : M -> M -> bool).
  (* HashSet::insert on a list without repetitions *)
  Definition set_add (m : M) (l : list M) : list M := if existsb (meq m) l then l else l ++ [m].
  (* matcher.rs:135-147, 158-170 *)
  Fixpoint parse_words (ws : list text) (acc : list M) : option (list M) :=
    match ws with
    | [] => Some acc
    | w :: ws' => match parse w with Some m => parse_words ws' (set_add m acc) | None => None end
    end.
  (* matcher.rs:135-147, 158-170 *)
  Definition parse_set (s : text) : option (list M) := parse_words (split_ws s) [].
  (* matcher.rs:149-156, 172-179: in the order the HashSet happens to be walked, given as
     the list *)
  Definition show_set (l : list M) : text := flat_map disp l.
End Sets.

(* ---- rules and locations --------------------------------------------------------------- *)
(* matcher.rs:194-203 *)
Definition rule_of (s : text) : matcher := Matcher (Some s) None None None None None.
(* matcher.rs:205-215 *)
Definition show_rule (m : matcher) : text :=
  (match m_path m with Some p => p | None => [] end) ++ (match m_host m with Some h => h | None => [] end).
(* HashSet::eq on lists without repetitions: as many, and each in the other *)
Definition set_eqb (a b : list text) : bool := (length a =? length b)%nat && forallb (fun x => mem_text x b) a.
(* Option::eq *)
Definition opt_eqb {A} (eqb : A -> A -> bool) (a b : option A) : bool :=
  match a, b with None, None => true | Some x, Some y => eqb x y | _, _ => false end.
(* Vec::eq *)
Fixpoint list_eqb {A} (eqb : A -> A -> bool) (a b : list A) : bool :=
  match a, b with [], [] => true | x :: a', y :: b' => eqb x y && list_eqb eqb a' b' | _, _ => false end.
(* ip_sets.rs:16-20 derive(PartialEq) *)
Definition gate_eqb (a b : gate) : bool := ip_eqb (g_ip a) (g_ip b) && (g_len a =? g_len b).
(* matcher.rs:35-47 derive(PartialEq) *)
Definition matcher_eqb (a b : matcher) : bool :=
  opt_eqb leqb (m_path a) (m_path b) && opt_eqb (list_eqb gate_eqb) (m_client a) (m_client b)
  && opt_eqb (list_eqb gate_eqb) (m_remote a) (m_remote b) && opt_eqb leqb (m_host a) (m_host b)
  && opt_eqb set_eqb (m_method a) (m_method b) && opt_eqb set_eqb (m_scheme a) (m_scheme b).
(* location.rs:72-76 *)
Definition key_eqb (a b : key) : bool :=
  matcher_eqb (fst (fst a)) (fst (fst b)) && opt_eqb leqb (snd (fst a)) (snd (fst b)) && opt_eqb leqb (snd a) (snd b).
(* location.rs:59-70: what is given to the hasher *)
Definition hash_input (k : key) : text :=
  show_rule (fst (fst k)) ++ (match snd (fst k) with Some u => u | None => [] end) ++ (match snd k with Some m => m | None => [] end).
(* location.rs:96-110 clone_only_hash, in the fields kept here *)
Definition clone_only_hash (l : location) : location :=
  Location (l_rule l) (l_up_name l) (l_meth l) (l_is_ws l) None None None None.
