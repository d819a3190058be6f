(* Configuration values and their text form: src/config/size.rs, duration.rs,
   rate.rs, header.rs, log.rs, src/flag.rs, src/reverse/limit_req.rs and the
   header rules of src/helper.rs.  Err carries no message. *)
From Coq Require Import String.
From Verif Require Import Base Text TextOps.
Open Scope N_scope.

(* ---- config/size.rs ------------------------------------------------------------ *)
(* size.rs:22-34 SIZE_MAP_UNIT *)
Definition unit_of (b : N) : option N :=
  if (b =? 107) || (b =? 75) then Some 1024
  else if (b =? 109) || (b =? 77) then Some (1024 ^ 2)
  else if (b =? 103) || (b =? 71) then Some (1024 ^ 3)
  else if (b =? 116) || (b =? 84) then Some (1024 ^ 4)
  else if (b =? 112) || (b =? 80) then Some (1024 ^ 5)
  else None.
(* size.rs:37 SIZE_TRIM_STR *)
Definition is_unit (c : N) : bool := match unit_of c with Some _ => true | None => false end.
(* s.as_bytes().last() *)
Definition last_byte (s : text) : option N :=
  match rev s with [] => None | c :: _ => Some (List.last (utf8_char c) 0) end.
(* size.rs:58-80; `s * multi` overflowing u64 panics in a debug build and wraps
   in a release build: Panic stands for both *)
Definition parse_size (s : text) : res unit N :=
  match last_byte s with
  | None => Err tt
  | Some b =>
    match unit_of b with
    | Some m => match parse_uint u64_max (trim_end_p is_unit s) with
                | None => Err tt
                | Some n => if n * m <=? u64_max then Ok (n * m) else Panic
                end
    | None => if is_digit b
              then match parse_uint u64_max s with None => Err tt | Some n => Ok n end
              else match parse_uint u64_max (trim_end_p (fun c => c =? b) s) with None => Err tt | Some n => Ok n end
    end
  end.
(* size.rs:18 SIZE_UNIT *)
Definition size_unit : list text := [[]; [107]; [109]; [103]; [116]; [112]].
(* size.rs:84-97 *)
Fixpoint size_loop (units : list text) (div : N) : N * text :=
  match units with
  | [] => (div, [])
  | [u] => (div, u)
  | u :: rest => if (1024 <? div) && (div mod 1024 =? 0) then size_loop rest (div / 1024) else (div, u)
  end.
(* size.rs:84-97 *)
Definition show_size (n : N) : text := let '(d, u) := size_loop size_unit n in show d ++ u.

(* ---- config/duration.rs; a duration is a number of nanoseconds ------------------ *)
Definition ns : N := 1000000000.
(* duration.rs:42-69: a missing number counts as one *)
Definition or_one (o : option N) : N := match o with Some n => n | None => 1 end.
(* u64 multiplication: a panic in a debug build, wrapping in a release build *)
Definition times (a b : N) : res unit N := if a * b <=? u64_max then Ok (a * b) else Panic.
(* duration.rs:42-69 *)
Definition parse_dur (s : text) : res unit N :=
  match s with
  | [] => Err tt
  | _ =>
    if ends_with (txt "ms") s then
      do n <- times (or_one (parse_uint u64_max (trim_end_str (txt "ms") s))) 1000000 ; Ok (n mod 2 ^ 32)
    else if ends_with (txt "h") s then
      do n <- times (or_one (parse_uint u64_max (trim_end_str (txt "h") s))) 3600 ; Ok (n * ns)
    else if ends_with (txt "min") s then
      do n <- times (or_one (parse_uint u64_max (trim_end_str (txt "min") s))) 60 ; Ok (n * ns)
    else if ends_with (txt "s") s then
      Ok (or_one (parse_uint u64_max (trim_end_str (txt "s") s)) * ns)
    else Ok (or_one (parse_uint u64_max s) * ns)
  end.
(* duration.rs:74-88; `ms as u64 + s * 1000` may overflow: Panic *)
Definition show_dur (d : N) : res unit text :=
  let ms := d mod ns / 1000000 in
  let s := d / ns in
  if 0 <? ms then (if ms + s * 1000 <=? u64_max then Ok (show (ms + s * 1000) ++ txt "ms") else Panic)
  else if (3600 <=? s) && (s mod 3600 =? 0) then Ok (show (s / 3600) ++ txt "h")
  else if (60 <=? s) && (s mod 60 =? 0) then Ok (show (s / 60) ++ txt "min")
  else Ok (show s ++ txt "s").

(* ---- config/rate.rs:43-58 ------------------------------------------------------- *)
Definition parse_rate (s : text) : res unit (N * N) :=
  match s with
  | [] => Err tt
  | _ => match map trim (split_on 47 s) with
         | a :: b :: _ => do n <- parse_size a ; do d <- parse_dur b ; Ok (n, d)
         | _ => Err tt
         end
  end.

(* ---- reverse/limit_req.rs ------------------------------------------------------- *)
Record lzone := LZone { lz_key : text; lz_limit : N; lz_nums : N; lz_per : N }.
(* limit_req.rs:98-108 *)
Definition show_zone (z : lzone) : res unit text :=
  do d <- show_dur (lz_per z) ;
  Ok (lz_key z ++ txt " limit=" ++ show_size (lz_limit z) ++ txt " rate=" ++ show (lz_nums z) ++ txt "r/" ++ d).
(* limit_req.rs:118-136; Rate::default() of wenmeng is a parameter *)
Fixpoint zone_args (vs : list text) (limit : N) (rate : N * N) : res unit (N * (N * N)) :=
  match vs with
  | [] => Ok (limit, rate)
  | v :: vs' =>
    match map trim (split_on 61 v) with
    | k :: w :: _ =>
      if leqb k (txt "limit") then do n <- parse_size w ; zone_args vs' n rate
      else if leqb k (txt "rate") then do r <- parse_rate w ; zone_args vs' limit r
      else Err tt
    | _ => Err tt
    end
  end.
(* limit_req.rs:110-140: v[0] panics when there is no word at all *)
Definition parse_zone (default_rate : N * N) (s : text) : res unit lzone :=
  match split_ws s with
  | [] => Panic
  | key :: vs => do (limit, rate) <- zone_args vs 0 default_rate ; Ok (LZone key limit (fst rate) (snd rate))
  end.
(* limit_req.rs:45-48 *)
Record lreq := LReq { lr_zone : text; lr_burst : N }.
(* limit_req.rs:142-146 *)
Definition show_lreq (r : lreq) : text := txt "zone=" ++ lr_zone r ++ txt " brust=" ++ show (lr_burst r).
(* limit_req.rs:148-177 *)
Fixpoint lreq_args (vs : list text) (zone : text) (burst : N) : res unit lreq :=
  match vs with
  | [] => Ok (LReq zone burst)
  | v :: vs' =>
    match map trim (split_on 61 v) with
    | k :: w :: _ =>
      if leqb k (txt "zone") then lreq_args vs' w burst
      else if leqb k (txt "brust") then
        match parse_uint u64_max w with Some n => lreq_args vs' zone n | None => Err tt end
      else Err tt
    | _ => Err tt
    end
  end.
(* limit_req.rs:148-177 *)
Definition parse_lreq (s : text) : res unit lreq := lreq_args (split_on 32 s) [] 0.

(* ---- flag.rs ---------------------------------------------------------------------- *)
Definition f_http : N := 1.
(* src/flag.rs:23 *)
Definition f_https : N := 2.
(* src/flag.rs:25 *)
Definition f_socks5 : N := 4.
(* src/flag.rs:27 *)
Definition f_tcp : N := 8.
Definition f_udp : N := 22.    (* 0x16 *)
(* bitflags: contains, from_bits, all *)
Definition f_contains (b f : N) : bool := N.land b f =? f.
(* all named bits together (bitflags) *)
Definition f_all : N := 31.
(* bitflags from_bits: only named bits *)
Definition f_from_bits (v : N) : option N := if N.land v f_all =? v then Some v else None.
(* src/flag.rs:58-84 *)
Definition f_word (b : N) (v : text) : N :=
  if leqb v (txt "http") || leqb v (txt "HTTP") then N.lor b f_http
  else if leqb v (txt "https") || leqb v (txt "HTTPS") then N.lor b f_https
  else if leqb v (txt "socks5") || leqb v (txt "SOCKS5") then N.lor b f_socks5
  else b.
(* src/flag.rs:58-84 *)
Definition parse_flag (s : text) : res unit N :=
  match s with [] => Err tt | _ => Ok (fold_left f_word (split_ws s) 0) end.
(* src/flag.rs:87-110 *)
Definition f_append (v w : text) : text := match v with [] => w | _ => v ++ [32] ++ w end.
(* src/flag.rs:87-110 *)
Definition show_flag (b : N) : text :=
  let v0 := if f_contains b f_http then txt "http" else [] in
  let v1 := if f_contains b f_https then f_append v0 (txt "https") else v0 in
  if f_contains b f_socks5 then f_append v1 (txt "socks5") else v1.
(* src/flag.rs:40-55 the JSON form *)
Definition flag_to_json (b : N) : N := b.
(* src/flag.rs:49-55 *)
Definition flag_of_json (v : N) : N := match f_from_bits v with Some b => b | None => f_http end.

(* ---- config/log.rs ------------------------------------------------------------------ *)
Inductive level := LError | LWarn | LInfo | LDebug | LTrace.
(* == of log::Level *)
Definition level_eqb (a b : level) : bool :=
  match a, b with LError, LError | LWarn, LWarn | LInfo, LInfo | LDebug, LDebug | LTrace, LTrace => true | _, _ => false end.
(* the log crate: Level's Display and FromStr (ASCII case-insensitive) *)
Definition show_level (l : level) : text :=
  match l with LError => txt "ERROR" | LWarn => txt "WARN" | LInfo => txt "INFO" | LDebug => txt "DEBUG" | LTrace => txt "TRACE" end.
(* char::to_ascii_uppercase *)
Definition upper (c : N) : N := if (97 <=? c) && (c <=? 122) then c - 32 else c.
(* char::to_ascii_lowercase *)
Definition lower (c : N) : N := if (65 <=? c) && (c <=? 90) then c + 32 else c.
(* log::Level::from_str: the names, ASCII case ignored *)
Definition parse_level (s : text) : option level :=
  let u := map upper s in
  if leqb u (txt "ERROR") then Some LError else if leqb u (txt "WARN") then Some LWarn
  else if leqb u (txt "INFO") then Some LInfo else if leqb u (txt "DEBUG") then Some LDebug
  else if leqb u (txt "TRACE") then Some LTrace else None.
(* log.rs:20-24 *)
Record clog := CLog { l_name : text; l_format : text; l_level : level }.
(* log.rs:35-44 *)
Definition as_error (l : clog) : clog :=
  match l_format l with
  | [] => l
  | _ => CLog (l_name l) [] (match parse_level (map lower (l_format l)) with Some v => v | None => LTrace end)
  end.
(* log.rs:47-59 *)
Definition show_log (l : clog) : text :=
  match l_format l with
  | [] => l_name l ++ [32] ++ show_level (l_level l)
  | _ => if level_eqb (l_level l) LTrace then l_name l ++ [32] ++ l_format l
         else l_name l ++ [32] ++ l_format l ++ [32] ++ show_level (l_level l)
  end.
(* log.rs:61-79 *)
Definition parse_log (s : text) : res unit clog :=
  match split_on 32 s with
  | a :: b :: rest =>
    let lv := match rest with [c] => match parse_level c with Some v => v | None => LTrace end | _ => LTrace end in
    Ok (CLog a b lv)
  | _ => Err tt
  end.

(* ---- config/header.rs ---------------------------------------------------------------- *)
Inductive hoper := OAdd | ODel | ODefault | OReplace.
(* header.rs:45-67 *)
Definition show_oper (o : hoper) : text := match o with OAdd => [43] | ODel => [45] | OReplace => [] | ODefault => [63] end.
(* header.rs:59-67 *)
Definition parse_oper (s : text) : hoper :=
  if leqb s [43] then OAdd else if leqb s [45] then ODel else if leqb s [63] then ODefault else OReplace.
(* header.rs:72-77 *)
Record cheader := CHeader { ch_oper : hoper; ch_proxy : bool; ch_key : text; ch_val : text }.

(* helper.rs:249-259 split_by_whitespace: the captured parts of the
   non-overlapping leftmost matches of a regular expression with three
   alternatives: a run of characters that are neither blank nor quotes, a
   double-quoted text, a single-quoted text.  Fuel: one step per character. *)
Definition is_plain (c : N) : bool := negb (is_ws c) && negb (c =? 39) && negb (c =? 34).
(* the longest prefix of characters satisfying p (regex classes with +, * of helper.rs:251) *)
Fixpoint span (p : N -> bool) (s : text) : text * text :=
  match s with
  | [] => ([], [])
  | c :: s' => if p c then let '(a, b) := span p s' in (c :: a, b) else ([], s)
  end.
(* helper.rs:249-259: the matches of the regex, left to right *)
Fixpoint tokens (fuel : nat) (s : text) : list text :=
  match fuel, s with
  | S f, c :: s' =>
    if is_plain c then let '(w, r) := span is_plain s in w :: tokens f r
    else if (c =? 34) || (c =? 39) then
      match span (fun x => negb (x =? c)) s' with
      | (w, _ :: r) => w :: tokens f r
      | (_, []) => tokens f s'
      end
    else tokens f s'
  | _, _ => []
  end.
(* helper.rs:249-259 *)
Definition split_by_whitespace (s : text) : list text := tokens (length s) s.

(* header.rs:90-129; vals[0] on an empty list panics *)
Definition parse_header (s : text) : res unit cheader :=
  match s with
  | [] => Err tt
  | _ =>
    match split_by_whitespace s with
    | [] => Panic
    | [a; b; c; d] => if leqb a (txt "proxy") then Ok (CHeader (parse_oper b) true c d) else Err tt
    | [a; b; c] => if leqb a (txt "proxy") then Ok (CHeader OReplace true b c)
                   else Ok (CHeader (parse_oper a) false b c)
    | [a; b] => if leqb a [45] then Ok (CHeader ODel false b []) else Ok (CHeader OReplace false a b)
    | _ => Err tt
    end
  end.
(* header.rs:131-145 *)
Definition show_header (h : cheader) : text :=
  match ch_proxy h, ch_oper h with
  | true, ODefault => txt "proxy " ++ ch_key h ++ [32] ++ ch_val h
  | true, o => txt "proxy " ++ show_oper o ++ [32] ++ ch_key h ++ [32] ++ ch_val h
  | false, ODefault => ch_key h ++ [32] ++ ch_val h
  | false, o => show_oper o ++ [32] ++ ch_key h ++ [32] ++ ch_val h
  end.

(* ---- helper.rs:420-485 rewrite_header -------------------------------------------------
   webparse's HeaderMap is a list of pairs: push appends, contains and remove
   compare names with `same` (a parameter); remove is taken to drop every value
   of that name.  conv is wenmeng's HeaderHelper::convert_value (placeholders),
   applied to the configured value. *)
Definition headers := list (text * text).
Section Rewrite.
  Context (same : text -> text -> bool) (conv : text -> text).
  (* webparse HeaderMap push: a further line *)
  Definition h_push (k v : text) (h : headers) : headers := h ++ [(k, v)].
  (* webparse HeaderMap contains *)
  Definition h_contains (k : text) (h : headers) : bool := existsb (fun kv => same k (fst kv)) h.
  (* webparse HeaderMap remove: all lines of that name *)
  Definition h_remove (k : text) (h : headers) : headers := filter (fun kv => negb (same k (fst kv))) h.
  (* push is a parameter of the first definition so that what add and replace
     do can be stated without fixing its meaning *)
  Definition rewrite_with (push : text -> text -> headers -> headers) (r : cheader) (h : headers) : headers :=
    match ch_oper r with
    | OAdd => push (ch_key r) (conv (ch_val r)) h
    | ODel => h_remove (ch_key r) h
    | ODefault => if h_contains (ch_key r) h then h else push (ch_key r) (conv (ch_val r)) h
    | OReplace => push (ch_key r) (conv (ch_val r)) h
    end.
  (* helper.rs:420-485 *)
  Definition rewrite_header : cheader -> headers -> headers := rewrite_with h_push.
  (* helper.rs:395-405, 407-418 *)
  Definition rewrite_request (rs : list cheader) (h : headers) : headers :=
    fold_left (fun acc r => if ch_proxy r then rewrite_header r acc else acc) rs h.
  (* helper.rs:407-418 *)
  Definition rewrite_response (rs : list cheader) (h : headers) : headers :=
    fold_left (fun acc r => if ch_proxy r then acc else rewrite_header r acc) rs h.
End Rewrite.
