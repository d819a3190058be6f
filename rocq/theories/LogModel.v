(* Log patterns: src/log/pattern/parser.rs and src/log/pattern/mod.rs.

   Text is a list of characters; bytes appear where the code counts them.  Not
   modelled: that the underlying writer reports an error (encode then stops and returns
   it), and the text chrono produces for a date format (a parameter; None where chrono's
   Display fails on the format). *)
From Coq Require Import String.
From Verif Require Import Base Text TextOps.
Open Scope N_scope.

(* ---- parser.rs ---- *)
(* parser.rs:20-32 *)
Record params := Params { p_fill : N; p_right : bool; p_min : option N; p_max : option N }.
(* parser.rs:4-18 *)
Inductive piece := PText (t : text) | PArg (name : text) (args : list (list piece)) (par : params) | PErr (e : text).

Definition c_lb : N := 123. (* { *)
Definition c_rb : N := 125. (* } *)
Definition c_lp : N := 40.  (* ( *)
Definition c_rp : N := 41.  (* ) *)
Definition c_bs : N := 92.  (* \ *)
Definition bracket (c : N) : bool := (c =? c_lb) || (c =? c_rb) || (c =? c_lp) || (c =? c_rp).
(* parser.rs:184-270: the characters that need doubling or a backslash *)
Definition special (c : N) : bool := bracket c || (c =? c_bs).

Section Parser.
  (* char::is_alphabetic and char::is_alphanumeric *)
  Context (alpha alnum : N -> bool).

  (* parser.rs:48-56 *)
  Definition consume (c : N) (s : text) : option text :=
    match s with d :: s' => if d =? c then Some s' else None | [] => None end.
  (* parser.rs:77-95 *)
  Fixpoint span (p : N -> bool) (s : text) : text * text :=
    match s with c :: s' => if p c then let (a, b) := span p s' in (c :: a, b) else ([], s) | [] => ([], []) end.
  (* parser.rs:77-95 *)
  Definition name (s : text) : text * text :=
    match s with
    | c :: s' => if alpha c || (c =? 95) then let (a, b) := span (fun d => alnum d || (d =? 95)) s' in (c :: a, b) else ([], s)
    | [] => ([], [])
    end.
  (* parser.rs:164-182; the sum wraps in a release build (and panics in a debug build) *)
  Definition integer (s : text) : option N * text :=
    let (ds, r) := span is_digit s in
    match ds with [] => (None, r) | _ => (Some (fold_left (fun cur d => (cur * 10 + (d - 48)) mod 2 ^ 64) ds 0), r) end.
  (* parser.rs:123-162 *)
  Definition parameters (s : text) : params * text :=
    match consume 58 s with
    | None => (Params 32 false None None, s)
    | Some s =>
      let (fill, s) := match s with
                       | c :: d :: s' => if (d =? 60) || (d =? 62) then (c, d :: s') else (32, s)
                       | _ => (32, s)
                       end in
      let (right, s) := match consume 60 s with
                        | Some s' => (false, s')
                        | None => match consume 62 s with Some s' => (true, s') | None => (false, s) end
                        end in
      let (mn, s) := integer s in
      let (mx, s) := match consume 46 s with Some s' => integer s' | None => (None, s) end in
      (Params fill right mn mx, s)
    end.
  (* parser.rs:197-270 next, 58-75 argument and formatter, 97-121 args and arg, 184-194
     text.  The recursion of the code is made explicit by a bound; parse gives enough. *)
  Fixpoint next (n : nat) (s : text) {struct n} : option (piece * text) :=
    match n with
    | O => None
    | S n =>
      match s with
      | [] => None
      | c :: s1 =>
        if c =? c_lb then
          match consume c_lb s1 with
          | Some s2 => Some (PText [c_lb], s2)
          | None =>
            let (nm, s2) := name s1 in
            let '(p, s4) := match args n s2 with
                            | inr (l, s3) => let (par, s4) := parameters s3 in (PArg nm l par, s4)
                            | inl (e, s3) => (PErr e, s3)
                            end in
            match consume c_rb s4 with Some s5 => Some (p, s5) | None => Some (PErr (txt "expected '}'"), []) end
          end
        else if c =? c_rb then
          match consume c_rb s1 with Some s2 => Some (PText [c_rb], s2) | None => Some (PErr (txt "unmatched '}'"), s1) end
        else if c =? c_lp then
          match consume c_lp s1 with Some s2 => Some (PText [c_lp], s2) | None => Some (PErr (txt "unexpected '('"), s1) end
        else if c =? c_rp then
          match consume c_rp s1 with Some s2 => Some (PText [c_rp], s2) | None => Some (PErr (txt "unexpected ')'"), s1) end
        else if c =? c_bs then
          match s1 with
          | d :: s2 => if special d then Some (PText [d], s2) else Some (PErr (txt "unexpected '\'"), s1)
          | [] => Some (PErr (txt "unexpected '\'"), s1)
          end
        else let (t, s2) := span (fun d => negb (special d)) (c :: s1) in Some (PText t, s2)
      end
    end
  (* parser.rs:97-103 *)
  with args (n : nat) (s : text) {struct n} : (text * text) + (list (list piece) * text) :=
    match n with
    | O => inr ([], s)
    | S n =>
      match consume c_lp s with
      | None => inr ([], s)
      | Some s1 =>
        match arg n s1 with
        | inl e => inl e
        | inr (a, s2) => match args n s2 with inl e => inl e | inr (l, s3) => inr (a :: l, s3) end
        end
      end
    end
  (* parser.rs:105-121 *)
  with arg (n : nat) (s : text) {struct n} : (text * text) + (list piece * text) :=
    match n with
    | O => inl (txt "unclosed '('", s)
    | S n =>
      match consume c_rp s with
      | Some s1 => inr ([], s1)
      | None =>
        match next n s with
        | None => inl (txt "unclosed '('", s)
        | Some (p, s1) => match arg n s1 with inl e => inl e | inr (l, s2) => inr (p :: l, s2) end
        end
      end
    end.
  (* log/pattern/mod.rs:776 Parser::new(pattern) taken to its end *)
  Fixpoint pieces (n m : nat) (s : text) : list piece :=
    match n with
    | O => []
    | S n => match next m s with None => [] | Some (p, s') => p :: pieces n m s' end
    end.
  (* parser.rs:41-46, 197-270 all pieces *)
  Definition parse (s : text) : list piece := pieces (S (length s)) (2 * length s + 2) s.
End Parser.

(* ---- log/pattern/mod.rs: chunks ---- *)
(* log/pattern/mod.rs:555-591 (Align, Highlight and Time are constructors of chunk) *)
Inductive field :=
| FLevel | FMessage | FModule | FFile | FLine | FThread | FThreadId | FProcessId | FSystemThreadId | FTarget | FNewline | FMdc
| FClientIp | FClientUser | FUrl | FPath | FQuery | FHost | FStatus | FReferer | FUserAgent | FCookie | FSslProtocol | FSslCipher
| FUpstreamStatus | FBodyBytesSent | FUpstreamAddr | FRequestTime | FUpstreamResponseTime.
(* log/pattern/mod.rs:296-304 *)
Inductive chunk :=
| CText (t : text)
| CErr (e : text)
| CField (f : field) (p : params)
| CTime (fmt : text) (utc : bool) (p : params)
| CAlign (l : list chunk) (p : params)
| CHigh (l : list chunk) (p : params).

(* log/pattern/mod.rs:446-456, 499-515 *)
Definition names : list (text * field) := map (fun x => (txt (fst x), snd x)) [
  ("l", FLevel); ("level", FLevel); ("m", FMessage); ("message", FMessage); ("M", FModule); ("module", FModule); ("n", FNewline);
  ("f", FFile); ("file", FFile); ("L", FLine); ("line", FLine); ("T", FThread); ("thread", FThread); ("I", FThreadId); ("thread_id", FThreadId);
  ("P", FProcessId); ("pid", FProcessId); ("i", FSystemThreadId); ("tid", FSystemThreadId); ("t", FTarget); ("target", FTarget);
  ("client_ip", FClientIp); ("client_user", FClientUser); ("url", FUrl); ("path", FPath); ("query", FQuery); ("host", FHost); ("status", FStatus);
  ("up_status", FUpstreamStatus); ("body_bytes_sent", FBodyBytesSent); ("referer", FReferer); ("user_agent", FUserAgent); ("cookie", FCookie);
  ("ssl_protocol", FSslProtocol); ("ssl_cipher", FSslCipher); ("up_addr", FUpstreamAddr); ("request_time", FRequestTime); ("up_response_time", FUpstreamResponseTime)]%string.
(* log/pattern/mod.rs:387-538: a formatter has two names *)
Definition is_name (n : text) (a b : string) : bool := leqb n (txt a) || leqb n (txt b).
(* log/pattern/mod.rs:387-402 *)
Definition date_part (p : piece) : text :=
  match p with
  | PText t => t
  | PArg _ _ _ => txt "{ERROR: unexpected formatter}"
  | PErr e => txt "{ERROR: " ++ e ++ txt "}"
  end.
(* log/pattern/mod.rs:464-492: the first piece of an argument *)
Definition mdc_part (what : string) (a : option (list piece)) (missing : text + text) : text + text :=
  match a with
  | None => missing
  | Some (PText t :: _) => inr t
  | Some (PErr e :: _) => inl e
  | Some _ => inl (txt what)
  end.
(* log/pattern/mod.rs:372-547 *)
Fixpoint chunk_of (p : piece) : chunk :=
  match p with
  | PText t => CText t
  | PErr e => CErr e
  | PArg nm ar par =>
    if is_name nm "d" "date" then
      if (2 <? length ar)%nat then CErr (txt "expected at most two arguments") else
      let fmt := match nth_error ar 0 with Some a => flat_map date_part a | None => txt "%+" end in
      match nth_error ar 1 with
      | None => CTime fmt false par
      | Some (PText z :: _) =>
        if leqb z (txt "utc") then CTime fmt true par else if leqb z (txt "local") then CTime fmt false par
        else CErr (txt "invalid timezone `" ++ z ++ txt "`")
      | Some _ => CErr (txt "invalid timezone")
      end
    else if is_name nm "h" "highlight" then
      match ar with [a] => CHigh (map chunk_of a) par | _ => CErr (txt "expected exactly one argument") end
    else if is_name nm "X" "mdc" then
      if (2 <? length ar)%nat then CErr (txt "expected at most two arguments") else
      match mdc_part "invalid MDC key" (nth_error ar 0) (inl (txt "missing MDC key")) with
      | inl e => CErr e
      | inr _ => match mdc_part "invalid MDC default" (nth_error ar 1) (inr []) with inl e => CErr e | inr _ => CField FMdc par end
      end
    else if leqb nm [] then
      match ar with [a] => CAlign (map chunk_of a) par | _ => CErr (txt "expected exactly one argument") end
    else
      match lookup leqb nm names with
      | Some f => match ar with [] => CField f par | _ => CErr (txt "unexpected arguments") end
      | None => CErr (txt "unknown formatter `" ++ nm ++ txt "`")
      end
  end.

(* ---- log/pattern/mod.rs: writers ---- *)
(* log/mod.rs:46-93: the foreground colour and whether it is intense *)
Inductive style := Style (color : option N) (intense : bool).
(* what reaches the underlying writer *)
Inductive item := IB (b : N) | IS (s : style).
(* log/pattern/mod.rs:241-244 *)
Inductive bout := BData (b : bytes) | BStyle (s : style).
(* log/pattern/mod.rs:153-156, 204-208, 246-251; Base is the underlying writer: what it took so far,
   and how many bytes it will take at each of the next calls (then: all) *)
Inductive writer :=
| Base (out : list item) (sched : list nat)
| MaxW (rem : N) (w : writer)
| LeftW (fill fillc : N) (w : writer)
| RightW (fill fillc : N) (w : writer) (buf : list bout).

(* log/pattern/mod.rs:145-151 *)
Definition boundary (b : N) : bool := (b <? 0x80) || (0xC0 <=? b).
(* log/pattern/mod.rs:149-151 *)
Fixpoint char_starts (l : bytes) : N := match l with [] => 0 | b :: l' => (if boundary b then 1 else 0) + char_starts l' end.
(* log/pattern/mod.rs:160-172: the part before end, and what remains *)
Fixpoint maxscan (r : N) (l : bytes) : bytes * N :=
  match l with
  | [] => ([], r)
  | b :: l' =>
    if boundary b then if r =? 0 then ([], 0) else let (p, r') := maxscan (r - 1) l' in (b :: p, r')
    else let (p, r') := maxscan r l' in (b :: p, r')
  end.
(* bytes as output items *)
Definition ib (l : bytes) : list item := map IB l.
(* log/pattern/mod.rs:159-191, 220-228, 269-282: write, with the number of bytes it reports *)
Fixpoint write (w : writer) (buf : bytes) : writer * nat :=
  match w with
  | Base out sched =>
    match sched with
    | [] => (Base (out ++ ib buf) [], length buf)
    | k :: sched' => let n := Nat.min (Nat.max 1 k) (length buf) in (Base (out ++ ib (firstn n buf)) sched', n)
    end
  | MaxW r w =>
    let (pre, r') := maxscan r buf in
    match pre with
    | [] => (MaxW r w, length buf)
    | _ => let (w', n) := write w pre in
           if (n =? length pre)%nat then (MaxW r' w', n) else (MaxW (r - char_starts (firstn n pre)) w', n)
    end
  | LeftW f t w => let (w', n) := write w buf in (LeftW f (t - char_starts (firstn n buf)) w', n)
  | RightW f t w b =>
    (RightW f (t - char_starts buf) w (match rev b with BData d :: b' => rev b' ++ [BData (d ++ buf)] | _ => b ++ [BData buf] end), length buf)
  end.
(* std::io::Write::write_all: write until nothing is left (a write of 0 bytes is an error;
   LogProofs.write_some shows it does not occur) *)
Fixpoint write_all_n (n : nat) (w : writer) (buf : bytes) : writer :=
  match buf, n with
  | [], _ => w
  | _, O => w
  | _, S n => let (w', k) := write w buf in write_all_n n w' (skipn k buf)
  end.
(* std io::Write::write_all: write until nothing is left *)
Definition write_all (w : writer) (buf : bytes) : writer := write_all_n (length buf) w buf.
(* log/pattern/mod.rs:198-202, 235-239, 289-294 *)
Fixpoint set_style (w : writer) (s : style) : writer :=
  match w with
  | Base out sched => Base (out ++ [IS s]) sched
  | MaxW r w => MaxW r (set_style w s)
  | LeftW f t w => LeftW f t (set_style w s)
  | RightW f t w b => RightW f t w (b ++ [BStyle s])
  end.
(* log/pattern/mod.rs:211-216, 255-257 *)
Fixpoint fills (k : nat) (f : N) (w : writer) : writer := match k with O => w | S k => fills k f (write_all w (utf8_char f)) end.
(* log/pattern/mod.rs:211-216, 254-265, and leaving a MaxWidthWriter *)
Definition finish (w : writer) : writer :=
  match w with
  | Base _ _ => w
  | MaxW _ w => w
  | LeftW f t w => fills (N.to_nat t) f w
  | RightW f t w b => fold_left (fun w o => match o with BData d => write_all w d | BStyle s => set_style w s end) b (fills (N.to_nat t) f w)
  end.
(* log/pattern/mod.rs:313-366: the writer a formatted chunk is encoded into *)
Definition dress (p : params) (w : writer) : list (writer -> writer) * writer :=
  match p_min p, p_max p, p_right p with
  | None, None, _ => ([], w)
  | None, Some M, _ => ([finish], MaxW M w)
  | Some m, None, false => ([finish], LeftW (p_fill p) m w)
  | Some m, None, true => ([finish], RightW (p_fill p) m w [])
  | Some m, Some M, false => ([finish; finish], LeftW (p_fill p) m (MaxW M w))
  | Some m, Some M, true => ([finish; finish], RightW (p_fill p) m (MaxW M w) [])
  end.

(* ---- log/pattern/mod.rs: encoding ---- *)
(* how a field is written: pieces of text each written completely, or one call of write *)
Inductive wr := WAll (l : list text) | WOnce (t : text).
(* log::Level *)
Inductive level := Error | Warn | Info | Debug | Trace.
(* proxy_record.rs:19-24; the message in the pieces its Display produces *)
Record req := Req { rq_client_ip : option text; rq_url : list text; rq_path : text; rq_query : option text; rq_host : option text; rq_referer : option text; rq_agent : option text; rq_cookie : option text }.
(* proxy_record.rs:19-24 *)
Record record := Record_ {
  rc_level : level; rc_message : list text; rc_module : option text; rc_file : option text; rc_line : option N; rc_target : text;
  rc_thread : option text; rc_thread_id : text; rc_pid : N; rc_req : option req; rc_status : option (list text)
}.
(* Display of log::Level *)
Definition level_name (l : level) : text :=
  match l with Error => txt "ERROR" | Warn => txt "WARN" | Info => txt "INFO" | Debug => txt "DEBUG" | Trace => txt "TRACE" end.
(* log/pattern/mod.rs:602-603: ??? when missing *)
Definition or_q (o : option text) : text := match o with Some t => t | None => txt "???" end.
(* log/pattern/mod.rs:682-714: nothing when missing *)
Definition or_e (o : option text) : text := match o with Some t => t | None => [] end.
(* log/pattern/mod.rs:664-719: ??? without a request *)
Definition of_req (r : record) (f : req -> wr) : wr := match rc_req r with Some q => f q | None => WOnce (txt "???") end.
(* log/pattern/mod.rs:593-745 *)
Definition field_out (r : record) (f : field) : wr :=
  match f with
  | FLevel => WAll [level_name (rc_level r)]
  | FMessage => WAll (rc_message r)
  | FModule => WAll [or_q (rc_module r)]
  | FFile => WAll [or_q (rc_file r)]
  | FLine => WAll [match rc_line r with Some n => show n | None => txt "???" end]
  | FThread => WAll [match rc_thread r with Some t => t | None => txt "unnamed" end]
  | FThreadId | FSystemThreadId => WAll [rc_thread_id r]
  | FProcessId => WAll [show (rc_pid r)]
  | FTarget => WAll [rc_target r]
  | FNewline => WAll [[10]]
  | FClientIp => match rc_req r with Some q => WOnce (or_q (rq_client_ip q)) | None => WAll [] end
  | FUrl => of_req r (fun q => WAll (rq_url q))
  | FPath => of_req r (fun q => WAll [rq_path q])
  | FQuery => of_req r (fun q => WAll [or_e (rq_query q)])
  | FHost => of_req r (fun q => WAll [or_e (rq_host q)])
  | FReferer => of_req r (fun q => WAll [or_e (rq_referer q)])
  | FUserAgent => of_req r (fun q => WAll [or_e (rq_agent q)])
  | FCookie => of_req r (fun q => WAll [or_e (rq_cookie q)])
  | FStatus => match rc_status r with Some l => WAll l | None => WOnce (txt "???") end
  | FMdc | FClientUser | FSslProtocol | FSslCipher | FUpstreamStatus | FBodyBytesSent | FUpstreamAddr | FRequestTime | FUpstreamResponseTime => WAll []
  end.
(* log/pattern/mod.rs:593-745: how the chunk hands its text to the writer *)
Definition do_write (w : writer) (x : wr) : writer :=
  match x with
  | WAll l => fold_left (fun w t => write_all w (utf8 t)) l w
  | WOnce t => fst (write w (utf8 t))
  end.
(* log/pattern/mod.rs:627-635, 639-644 *)
Definition level_style (l : level) : option style :=
  match l with
  | Error => Some (Style (Some 1) true)
  | Warn => Some (Style (Some 3) false)
  | Info => Some (Style (Some 2) false)
  | Trace => Some (Style (Some 6) false)
  | Debug => None
  end.
(* log/mod.rs:75-77 Style::new *)
Definition no_style : style := Style None false.
(* log/pattern/mod.rs:627-635 *)
Definition style_on (w : writer) (l : level) : writer := match level_style l with Some s => set_style w s | None => w end.
(* log/pattern/mod.rs:639-644 *)
Definition style_off (w : writer) (l : level) : writer := match level_style l with Some _ => set_style w no_style | None => w end.

Section Encode.
  (* chrono: the text of the current time in a format; None: the format is not valid *)
  Context (now : text -> bool -> option (list text)).
  Context (r : record).
  (* log/pattern/mod.rs:313-366: the finish calls of the writers, innermost first *)
  Definition undress (fs : list (writer -> writer)) (w : writer) : writer := fold_left (fun w f => f w) fs w.
  (* log/pattern/mod.rs:306-370 and 593-646; None: an error is returned *)
  Fixpoint encode (c : chunk) (w : writer) : option writer :=
    let seq := fix seq (l : list chunk) (w : writer) : option writer :=
      match l with [] => Some w | c :: l' => match encode c w with Some w' => seq l' w' | None => None end end in
    match c with
    | CText t => Some (write_all w (utf8 t))
    | CErr e => Some (do_write w (WAll [txt "{ERROR: "; e; txt "}"]))
    | CField f p => let (fs, w1) := dress p w in Some (undress fs (do_write w1 (field_out r f)))
    | CTime fmt utc p => let (fs, w1) := dress p w in match now fmt utc with Some l => Some (undress fs (do_write w1 (WAll l))) | None => None end
    | CAlign l p => let (fs, w1) := dress p w in match seq l w1 with Some w2 => Some (undress fs w2) | None => None end
    | CHigh l p => let (fs, w1) := dress p w in match seq l (style_on w1 (rc_level r)) with Some w2 => Some (undress fs (style_off w2 (rc_level r))) | None => None end
    end.
  (* log/pattern/mod.rs:761-768 *)
  Fixpoint encode_seq (l : list chunk) (w : writer) : option writer :=
    match l with [] => Some w | c :: l' => match encode c w with Some w' => encode_seq l' w' | None => None end end.
  (* log/pattern/mod.rs:770-780 *)
  Definition log_line (alpha alnum : N -> bool) (pattern : text) (w : writer) : option writer := encode_seq (map chunk_of (parse alpha alnum pattern)) w.
  (* helper.rs:230-247 format_req, on a Vec; String::from_utf8_lossy at the end *)
  Definition format_req (alpha alnum : N -> bool) (pattern : text) : res unit bytes :=
    match log_line alpha alnum pattern (Base [] []) with
    | Some (Base out _) => Ok (from_utf8_lossy (flat_map (fun i => match i with IB b => [b] | IS _ => [] end) out))
    | Some _ => Ok []
    | None => Panic
    end.
End Encode.
