(* Tunnel protocol: src/prot/*.rs and Helper::decode_frame.

   Strings are carried as the bytes of a Rust String.  A `Buf` is the list of
   its remaining bytes; get_u8/get_u16/get_u32/read_u24 on a Buf that is too
   short panic (bytes/webparse semantics). *)
From Verif Require Import Base Text.
Open Scope N_scope.

(* src/error.rs: the two errors the codec can report.  NotEnough is what
   webparse's must_have! returns. *)
Inductive perr := TooShort | NotEnough.

(* a parser over a Buf *)
Definition rd (A : Type) := bytes -> res perr (A * bytes).

(* Buf::get_u8 *)
Definition get_u8 : rd N := fun b =>
  match b with x :: r => Ok (x, r) | [] => Panic end.
(* Buf::get_u16 (big endian) *)
Definition get_u16 : rd N := fun b =>
  match b with x :: y :: r => Ok (x * 256 + y, r) | _ => Panic end.
(* webparse::http2::frame::read_u24 *)
Definition read_u24 : rd N := fun b =>
  match b with x :: y :: z :: r => Ok (x * 65536 + y * 256 + z, r) | _ => Panic end.
(* Buf::get_u32 *)
Definition get_u32 : rd N := fun b =>
  match b with
  | x :: y :: z :: w :: r => Ok (x * 16777216 + y * 65536 + z * 256 + w, r)
  | _ => Panic
  end.
(* must_have!(buf, n)? *)
Definition must_have (n : N) : rd unit := fun b =>
  if nlen b <? n then Err NotEnough else Ok (tt, b).

(* src/prot/mod.rs:36-49 read_short_string *)
Definition read_short_string : rd bytes := fun b =>
  if nlen b <? 1 then Err TooShort
  else do (len, b1) <- get_u8 b ;
       if nlen b1 <? len then Err TooShort
       else if len =? 0 then Ok ([], b1)
       else Ok (from_utf8_lossy (firstn (N.to_nat len) b1), skipn (N.to_nat len) b1).

(* A writer appends bytes to the send buffer and may then fail: the bytes are
   there even if it fails. *)
Definition wr := (bytes * option perr)%type.
(* one write after the other; `?` stops at the first error *)
Definition wseq (a : wr) (b : wr) : wr :=
  match snd a with None => (fst a ++ fst b, snd b) | Some _ => a end.

(* src/prot/mod.rs:51-60 write_short_string *)
Definition write_short_string (s : bytes) : wr :=
  if 255 <? nlen s then ([], Some TooShort)
  else (be8 (nlen s) ++ s, None).

(* src/prot/kind.rs:15-46 *)
Inductive kind := KData | KCreate | KClose | KMapping | KToken | KUnregistered.
(* src/prot/kind.rs:25-34 *)
Definition kind_new (b : N) : kind :=
  if b =? 0 then KData else if b =? 1 then KCreate else if b =? 2 then KClose
  else if b =? 3 then KMapping else if b =? 4 then KToken else KUnregistered.
(* src/prot/kind.rs:36-45 *)
Definition kind_encode (k : kind) : N :=
  match k with KData => 0 | KCreate => 1 | KClose => 2 | KMapping => 3 | KToken => 4
             | KUnregistered => 255 end.

(* src/prot/flag.rs:34-39: unknown bits make the whole flag zero. *)
Definition flag_new (b : N) : N := if b <? 16 then b else 0.

(* src/prot/frame.rs:22-31 *)
Record header := Header { h_len : N; h_kind : kind; h_flag : N; h_sock : N }.

(* src/helper.rs:512-514 calc_sock_map (u64 arithmetic; both parts are u32,
   so the sum fits). *)
Definition calc_sock_map (server_id id : N) : N := server_id * 4294967296 + id.

(* src/prot/frame.rs:95-103 ProtFrameHeader::encode.  `as u32` of the u64
   sock_map keeps 32 bits, of which encode_u24 keeps 24. *)
Definition header_encode (h : header) : bytes :=
  be24 (h_len h) ++ be8 (kind_encode (h_kind h)) ++ be8 (h_flag h)
  ++ be24 (h_sock h mod 4294967296) ++ be32 (h_sock h / 4294967296).

Definition frame_header_bytes : N := 12.   (* src/prot/frame.rs:49 *)

(* src/prot/frame.rs:78-92 parse_by_len *)
Definition parse_by_len (len : N) : rd header := fun b =>
  if nlen b <? frame_header_bytes - 3 then Err TooShort
  else do (k, b1) <- get_u8 b ;
       do (f, b2) <- get_u8 b1 ;
       do (s, b3) <- read_u24 b2 ;
       do (sid, b4) <- get_u32 b3 ;
       Ok (Header len (kind_new k) (flag_new f) (calc_sock_map sid s), b4).

(* src/config/header.rs:17-43 *)
Inductive hoper := HAdd | HDel | HDefault | HReplace.
(* src/config/header.rs:26-33 *)
Definition hoper_to_u8 (o : hoper) : N :=
  match o with HAdd => 1 | HDel => 2 | HDefault => 3 | HReplace => 4 end.
(* src/config/header.rs:35-42 *)
Definition hoper_from_u8 (n : N) : hoper :=
  if n =? 1 then HAdd else if n =? 2 then HDel else if n =? 3 then HDefault else HReplace.

(* src/config/header.rs:72-77 *)
Record hrule := HRule { hr_oper : hoper; hr_proxy : bool; hr_key : bytes; hr_val : bytes }.

(* src/mapping/config.rs:28-37.  The local address is opaque here. *)
Record mapping := Mapping {
  m_name : bytes; m_mode : bytes; m_local : option N; m_domain : bytes;
  m_headers : list hrule }.

(* src/prot/frame.rs:35-46 and the five payload structs.  ProtCreate.mode is
   always 0 (src/prot/create.rs:36,53) and is left out. *)
Inductive frame :=
| FCreate (sock : N) (domain : option bytes)
| FClose (sock : N) (reason : bytes)
| FData (sock : N) (data : bytes)
| FMapping (sock : N) (ms : list mapping)
| FToken (user pass : bytes).

(* src/prot/frame.rs:191-199, src/prot/token.rs:68-70 *)
Definition frame_sock (f : frame) : N :=
  match f with
  | FCreate s _ | FClose s _ | FData s _ | FMapping s _ => s
  | FToken _ _ => 0
  end.

(* src/prot/create.rs:58-77 ProtCreate::encode *)
Definition create_encode (sock : N) (domain : option bytes) : wr :=
  let d := match domain with Some s => s | None => [] end in
  let dlen := nlen d mod 4294967296 in
  (header_encode (Header ((1 + dlen) mod 4294967296) KCreate 0 sock) ++ be8 dlen ++ d, None).

(* src/prot/create.rs:41-56 ProtCreate::parse *)
Definition create_parse (h : header) (b : bytes) : res perr frame :=
  do (len, b1) <- get_u8 b ;
  if nlen b1 <? len then Err TooShort
  else Ok (FCreate (h_sock h)
             (if 0 <? len then Some (from_utf8_lossy (firstn (N.to_nat len) b1)) else None)).

(* src/prot/close.rs:46-53 / 38-44 *)
Definition close_encode (sock : N) (reason : bytes) : wr :=
  wseq (header_encode (Header ((nlen reason + 1) mod 4294967296) KClose 0 sock), None)
       (write_short_string reason).
(* src/prot/close.rs:38-44 *)
Definition close_parse (h : header) (b : bytes) : res perr frame :=
  do (r, _) <- read_short_string b ; Ok (FClose (h_sock h) r).

(* src/prot/data.rs:42-50 / 34-40; advance_chunk(n) takes n bytes and panics
   when there are fewer. *)
Definition data_encode (sock : N) (data : bytes) : wr :=
  (header_encode (Header (nlen data mod 4294967296) KData 0 sock) ++ data, None).
(* src/prot/data.rs:34-40 *)
Definition data_parse (h : header) (b : bytes) : res perr frame :=
  if nlen b <? h_len h then Panic
  else Ok (FData (h_sock h) (firstn (N.to_nat (h_len h)) b)).

(* src/prot/token.rs:40-48 / 34-38 *)
Definition token_encode (u p : bytes) : wr :=
  wseq (header_encode (Header ((nlen u + 1 + nlen p + 1) mod 4294967296) KToken 0 0), None)
       (wseq (write_short_string u) (write_short_string p)).
(* src/prot/token.rs:34-38 *)
Definition token_parse (h : header) (b : bytes) : res perr frame :=
  do (u, b1) <- read_short_string b ;
  do (p, _) <- read_short_string b1 ;
  Ok (FToken u p).

(* src/prot/mapping.rs:76-81: one header rule. *)
Definition hrule_encode (r : hrule) : wr :=
  wseq (be8 (if hr_proxy r then 1 else 0) ++ be8 (hoper_to_u8 (hr_oper r)), None)
       (wseq (write_short_string (hr_key r)) (write_short_string (hr_val r))).
(* src/prot/mapping.rs:76-81 *)
Fixpoint hrules_encode (rs : list hrule) : wr :=
  match rs with [] => ([], None) | r :: rs' => wseq (hrule_encode r) (hrules_encode rs') end.
(* src/prot/mapping.rs:71-82: one mapping; local_addr is not sent. *)
Definition mapping_encode1 (m : mapping) : wr :=
  wseq (write_short_string (m_name m))
  (wseq (write_short_string (m_mode m))
  (wseq (write_short_string (m_domain m))
  (wseq (be16 (nlen (m_headers m) mod 65536), None)
        (hrules_encode (m_headers m))))).
(* src/prot/mapping.rs:71-82 *)
Fixpoint mappings_encode (ms : list mapping) : wr :=
  match ms with [] => ([], None) | m :: ms' => wseq (mapping_encode1 m) (mappings_encode ms') end.
(* src/prot/mapping.rs:66-88: the body goes to a scratch buffer first, so an
   error leaves the send buffer untouched. *)
Definition mapping_encode (sock : N) (ms : list mapping) : wr :=
  let body := wseq (be16 (nlen ms mod 65536), None) (mappings_encode ms) in
  match snd body with
  | Some e => ([], Some e)
  | None => (header_encode (Header (nlen (fst body) mod 4294967296) KMapping 0 sock)
             ++ fst body, None)
  end.

(* src/prot/mapping.rs:38-64 ProtMapping::parse *)
Definition hrule_parse : rd hrule := fun b =>
  do (_, b0) <- must_have 2 b ;
  do (p, b1) <- get_u8 b0 ;
  do (o, b2) <- get_u8 b1 ;
  do (k, b3) <- read_short_string b2 ;
  do (v, b4) <- read_short_string b3 ;
  Ok (HRule (hoper_from_u8 o) (negb (p =? 0)) k v, b4).
(* src/prot/mapping.rs:50-57 *)
Fixpoint hrules_parse (n : nat) : rd (list hrule) := fun b =>
  match n with
  | O => Ok ([], b)
  | S n' => do (r, b1) <- hrule_parse b ;
            do (rs, b2) <- hrules_parse n' b1 ;
            Ok (r :: rs, b2)
  end.
(* src/prot/mapping.rs:44-58 *)
Definition mapping_parse1 : rd mapping := fun b =>
  do (name, b1) <- read_short_string b ;
  do (mode, b2) <- read_short_string b1 ;
  do (domain, b3) <- read_short_string b2 ;
  do (_, b4) <- must_have 2 b3 ;
  do (len, b5) <- get_u16 b4 ;
  do (hs, b6) <- hrules_parse (N.to_nat len) b5 ;
  Ok (Mapping name mode None domain hs, b6).
(* src/prot/mapping.rs:43-59 *)
Fixpoint mappings_parse (n : nat) : rd (list mapping) := fun b =>
  match n with
  | O => Ok ([], b)
  | S n' => do (m, b1) <- mapping_parse1 b ;
            do (ms, b2) <- mappings_parse n' b1 ;
            Ok (m :: ms, b2)
  end.
(* src/prot/mapping.rs:38-64 *)
Definition mapping_parse (h : header) (b : bytes) : res perr frame :=
  do (_, b0) <- must_have 2 b ;
  do (len, b1) <- get_u16 b0 ;
  do (ms, _) <- mappings_parse (N.to_nat len) b1 ;
  Ok (FMapping (h_sock h) ms).

(* src/prot/frame.rs:125-137 ProtFrame::encode *)
Definition encode (f : frame) : wr :=
  match f with
  | FData s d => data_encode s d
  | FCreate s d => create_encode s d
  | FClose s r => close_encode s r
  | FMapping s ms => mapping_encode s ms
  | FToken u p => token_encode u p
  end.

(* src/prot/frame.rs:109-122 ProtFrame::parse; Unregistered is todo!(). *)
Definition frame_parse (h : header) (b : bytes) : res perr frame :=
  match h_kind h with
  | KData => data_parse h b
  | KCreate => create_parse h b
  | KClose => close_parse h b
  | KMapping => mapping_parse h b
  | KToken => token_parse h b
  | KUnregistered => Panic
  end.

(* Result of Helper::decode_frame together with the receive buffer it leaves:
   nothing yet / a frame / an error / a panic. *)
Inductive dec :=
| DWait
| DFrame (f : frame) (rest : bytes)
| DFail (e : perr) (rest : bytes)
| DPanic.

(* src/helper.rs:53-75 Helper::decode_frame.  `copy` is a clone of the whole
   receive buffer, so the payload parser sees all following bytes too. *)
Definition decode_frame (buf : bytes) : dec :=
  if nlen buf <? 8 then DWait
  else match read_u24 buf with
       | Ok (len, copy) =>
         if nlen buf <? len + frame_header_bytes then DWait
         else let rest := skipn (N.to_nat (len + frame_header_bytes)) buf in
              match parse_by_len len copy with
              | Ok (h, body) =>
                match frame_parse h body with
                | Ok f => DFrame f rest
                | Err e => DFail e rest
                | Panic => DPanic
                end
              | Err e => DFail e rest
              | Panic => DPanic
              end
       | Err e => DFail e buf
       | Panic => DPanic
       end.

(* The receiver's inner loop (src/streams/center_server.rs:166-225,
   src/streams/center_client.rs:202-297): decode until DWait.  Fuel: each frame
   consumes at least 12 bytes, so length buf + 1 rounds always suffice; running
   out is reported as StopFuel. *)
Inductive stop := StopWait | StopErr (e : perr) | StopPanic | StopFuel.
(* src/streams/center_server.rs:166-225: decode until no whole frame is left *)
Fixpoint drain (fuel : nat) (buf : bytes) : list frame * bytes * stop :=
  match fuel with
  | O => ([], buf, StopFuel)
  | S fuel' =>
    match decode_frame buf with
    | DWait => ([], buf, StopWait)
    | DFrame f rest => let '(fs, r, st) := drain fuel' rest in (f :: fs, r, st)
    | DFail e rest => ([], rest, StopErr e)
    | DPanic => ([], buf, StopPanic)
    end
  end.

(* The receive side over a sequence of socket reads: after each read the bytes
   are appended to the buffer and the buffer is drained
   (src/streams/center_server.rs:131-145,166-228).  Stops at the first error. *)
Fixpoint receive (buf : bytes) (reads : list bytes) : list frame * bytes * stop :=
  match reads with
  | [] => ([], buf, StopWait)
  | r :: rs =>
    let b := buf ++ r in
    match drain (S (length b)) b with
    | (fs, rest, StopWait) =>
      let '(fs', rest', st) := receive rest rs in (fs ++ fs', rest', st)
    | (fs, rest, st) => (fs, rest, st)
    end
  end.
