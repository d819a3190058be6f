(* The file server: src/plugins/file_server.rs.

   The file system is a tree without symbolic links; names are text, so names that
   are not UTF-8 (where the listing panics) are left out.  Paths are Unix paths.
   Library functions are parameters: decode (webparse Url::url_decode), date
   (chrono DateTime::parse_from_rfc2822, as seconds), fmt_date (to_rfc2822, file_server.rs:274-277),
   seek (whether wenmeng's Body::set_start_end succeeds; None is the empty body).
   Not modelled: the HTTP parser, reading a file while it is changed, the Date header, rate limits of listings. *)
From Coq Require Import String.
From Verif Require Import Base Text TextOps.
Open Scope N_scope.

(* ---- text --------------------------------------------------------------------- *)
(* str::contains *)
Fixpoint contains (h s : text) : bool :=
  starts_with h s || match s with [] => false | _ :: s' => contains h s' end.
(* {:x} *)
Definition hex_digit (d : N) : N := if d <? 10 then 48 + d else 87 + d.
(* the digits of format! with {:x} *)
Fixpoint hexf (fuel : nat) (n : N) : text :=
  match fuel with
  | O => []
  | S f => if n <? 16 then [hex_digit n] else hexf f (n / 16) ++ [hex_digit (n mod 16)]
  end.
(* format! with {:x} (file_server.rs:271) *)
Definition hex (n : N) : text := hexf (S (N.to_nat (N.log2 n))) n.

(* ---- the file system ------------------------------------------------------------ *)
(* mtime: seconds since 1970, None when earlier or unknown *)
Inductive node := File (content : bytes) (mtime : option N) | Dir (entries : list (text * node)).
(* the node reached by plain names *)
Fixpoint at_names (t : node) (ns : list text) : option node :=
  match ns with
  | [] => Some t
  | n :: ns' =>
    match t with
    | File _ _ => None
    | Dir es => match lookup leqb n es with Some t' => at_names t' ns' | None => None end
    end
  end.
(* Path::is_dir on a resolved path *)
Definition is_dir_at (t : node) (ns : list text) : bool :=
  match at_names t ns with Some (Dir _) => true | _ => false end.
(* one step of path resolution: the current object must be a directory *)
Definition path_step (t : node) (cur : list text) (c : text) : option (list text) :=
  if is_dir_at t cur then
    if leqb c [] || leqb c (txt ".") then Some cur
    else if leqb c (txt "..") then Some (removelast cur)
    else match at_names t (cur ++ [c]) with Some _ => Some (cur ++ [c]) | None => None end
  else None.
(* the kernel walking over the components of a path: . and .. and names *)
Fixpoint path_walk (t : node) (cur : list text) (cs : list text) : option (list text) :=
  match cs with
  | [] => Some cur
  | c :: cs' => match path_step t cur c with Some cur' => path_walk t cur' cs' | None => None end
  end.
(* Path::is_absolute (Unix) *)
Definition absolute (p : text) : bool := starts_with (txt "/") p.
(* what the operating system finds at a path: the names from the top of the tree *)
Definition resolve (t : node) (cwd : list text) (p : text) : option (list text) :=
  match p with
  | [] => None
  | _ => path_walk t (if absolute p then [] else cwd) (split_on 47 p)
  end.

(* ---- std::path -------------------------------------------------------------------- *)
(* Path::components: RootDir is the empty text *)
Definition comps (p : text) : list text :=
  if absolute p then [] :: filter (fun c => negb (leqb c [] || leqb c (txt "."))) (split_on 47 p)
  else match split_on 47 p with
       | c :: cs => (if leqb c [] then [] else [c]) ++ filter (fun c => negb (leqb c [] || leqb c (txt "."))) cs
       | [] => []
       end.
(* Path::starts_with, component by component (file_server.rs:567) *)
Fixpoint is_prefix (a b : list text) : bool :=
  match a, b with
  | [], _ => true
  | x :: a', y :: b' => leqb x y && is_prefix a' b'
  | _, [] => false
  end.
(* Path::starts_with *)
Definition path_starts_with (p root : text) : bool := is_prefix (comps root) (comps p).
(* Path::join *)
Definition join (p q : text) : text :=
  if absolute q then q
  else match p with
       | [] => q
       | _ => if ends_with (txt "/") p then p ++ q else p ++ txt "/" ++ q
       end.
(* what Path::strip_prefix leaves of root ++ href: no leading / and ./ *)
Fixpoint strip_lead (s : text) : text :=
  match s with
  | c :: s' =>
    if c =? 47 then strip_lead s'
    else if c =? 46 then match s' with d :: s'' => if d =? 47 then strip_lead s'' else s | [] => [] end
    else s
  | [] => []
  end.
(* Path::extension, the empty text when there is none *)
Definition extension (p : text) : text :=
  match List.last (comps p) [] with
  | [] => []
  | f => if leqb f (txt "..") then []
         else match rev (split_on 46 f) with
              | [_; []] | [_] | [] => []
              | e :: _ => e
              end
  end.

(* ---- configuration, requests, responses ---------------------------------------------- *)
(* file_server.rs:119-151 *)
Record fcfg := FCfg {
  f_root : option text; f_prefix : text; f_mime : text; f_ext_mime : list (text * text); f_cache : option N;
  f_robots : option text; f_path404 : option text; f_hide : list text; f_index : list text; f_status : N;
  f_pre : list text; f_nocomp : bool; f_browse : bool; f_cors : bool }.
(* webparse Request: path, method HEAD, and the headers the file server reads (file_server.rs:297, 369-398, 481-524) *)
Record freq := FReq {
  q_path : text; q_head : bool; q_accept : option text; q_inm : option text; q_ims : option text;
  q_accept_ranges : option text; q_if_range : option text; q_range : option text }.
(* a file body carries the file it comes from; the interval is the one given to set_start_end;
   a listing is the directory and its links with the names shown; its page is in PgModel *)
Inductive fbody := BNone | BText (t : text) | BFile (names : list text) (content : bytes) (part : option (N * N)) | BList (names : list text) (links : list (text * text)).
(* webparse Response as far as it is set here *)
Record fresp := FResp { s_status : N; s_headers : list (text * text); s_body : fbody }.

(* HeaderMap::insert *)
Definition hset (k v : text) (r : fresp) : fresp := FResp (s_status r) (insert leqb k v (s_headers r)) (s_body r).
(* HeaderMap get *)
Definition hget (k : text) (r : fresp) : option text := lookup leqb k (s_headers r).
(* status_mut (file_server.rs:505, 508) *)
Definition set_status (n : N) (r : fresp) : fresp := FResp n (s_headers r) (s_body r).
(* replace_body (file_server.rs:513, 520) *)
Definition set_body (b : fbody) (r : fresp) : fresp := FResp (s_status r) (s_headers r) b.

(* file_server.rs:31-86: DEFAULT_MIMETYPE *)
Definition default_mime : list (text * text) :=
  [(txt "doc", txt "application/msword");
  (txt "pdf", txt "application/pdf");
  (txt "rtf", txt "application/rtf");
  (txt "xls", txt "application/vnd.ms-excel");
  (txt "ppt", txt "application/vnd.ms-powerpoint");
  (txt "rar", txt "application/application/x-rar-compressed");
  (txt "swf", txt "application/x-shockwave-flash");
  (txt "zip", txt "application/zip");
  (txt "json", txt "application/json");
  (txt "js", txt "application/javascript");
  (txt "yaml", txt "text/plain");
  (txt "yml", txt "text/plain");
  (txt "toml", txt "text/plain");
  (txt "mid", txt "audio/midi");
  (txt "midi", txt "audio/midi");
  (txt "kar", txt "audio/midi");
  (txt "mp3", txt "audio/mpeg");
  (txt "ogg", txt "audio/ogg");
  (txt "m4a", txt "audio/m4a");
  (txt "ra", txt "audio/x-realaudio");
  (txt "gif", txt "image/gif");
  (txt "jpeg", txt "image/jpeg");
  (txt "jpg", txt "image/jpeg");
  (txt "png", txt "image/png");
  (txt "tif", txt "image/tiff");
  (txt "tiff", txt "image/tiff");
  (txt "wbmp", txt "image/vnd.wap.wbmp");
  (txt "ico", txt "image/x-icon");
  (txt "jng", txt "image/x-jng");
  (txt "bmp", txt "image/x-ms-bmp");
  (txt "svg", txt "image/svg+xml");
  (txt "svgz", txt "image/svg+xml");
  (txt "webp", txt "image/webp");
  (txt "svg", txt "image/svg+xml");
  (txt "css", txt "text/css");
  (txt "html", txt "text/html");
  (txt "htm", txt "text/html");
  (txt "shtml", txt "text/html");
  (txt "txt", txt "text/plain");
  (txt "md", txt "text/plain");
  (txt "xml", txt "text/xml");
  (txt "3gpp", txt "video/3gpp");
  (txt "3gp", txt "video/3gpp");
  (txt "mp4", txt "video/mp4");
  (txt "mpeg", txt "video/mpeg");
  (txt "mpg", txt "video/mpeg");
  (txt "mov", txt "video/quicktime");
  (txt "webm", txt "video/webm");
  (txt "flv", txt "video/x-flv");
  (txt "m4v", txt "video/x-m4v");
  (txt "wmv", txt "video/x-ms-wmv");
  (txt "avi", txt "video/x-msvideo")].


(* file_server.rs:228-236 *)
Definition is_hide (c : fcfg) (p : text) : bool := existsb (fun h => contains h p) (f_hide c).

(* file_server.rs:253-261 *)
Definition get_mimetype (c : fcfg) (ext : text) : text :=
  match lookup leqb ext default_mime with
  | Some m => m
  | None => match lookup leqb ext (f_ext_mime c) with Some m => m | None => f_mime c end
  end.

(* file_server.rs:263-272: seconds are 0 when there is no time *)
Definition secs (mt : option N) : N := match mt with Some s => s | None => 0 end.
(* file_server.rs:263-272 *)
Definition calc_etag (mt : option N) (len : N) : text := hex (secs mt) ++ txt "-" ++ hex len.

(* file_server.rs:400-438 *)
Definition calc_bytes_range (v : text) (len : N) : option (N * N) :=
  match split_on 61 v with
  | [u; w] =>
    if leqb (trim u) (txt "bytes") then
      match split_on 44 w with
      | r :: _ =>
        match split_on 45 (trim r) with
        | [a; b] =>
          match (match a with [] => Some 0 | _ => parse_uint u64_max a end) with
          | None => None
          | Some s =>
            match (match b with [] => Some len | _ => parse_uint u64_max b end) with
            | None => None
            | Some e => if e <? s then None else Some (s, e)
            end
          end
        | _ => None
        end
      | [] => None
      end
    else None
  | _ => None
  end.

(* file_server.rs:503 *)
Definition content_range (s e len : N) : text := txt "bytes " ++ show s ++ txt "-" ++ show e ++ txt "/" ++ show len.
(* file_server.rs:511 *)
Definition no_range (len : N) : text := txt "bytes */" ++ show len.

Section Server.
  Context (decode : text -> option text) (date : text -> option N) (fmt_date : N -> text)
    (seek : option N -> N -> N -> bool) (fs : node) (cwd : list text) (cwd_text : text).

  (* file_server.rs:279-285 *)
  Definition calc_lastmodified (v : text) : N := match date v with Some s => s | None => 0 end.

  (* file_server.rs:440-475 *)
  Definition plain_headers (c : fcfg) (r : fresp) : fresp :=
    let r := match f_cache c with Some s => hset (txt "Cache-Control") (txt "max-age=" ++ show s) r | None => r end in
    let r := if f_cors c then hset (txt "Access-Control-Allow-Origin") (txt "*")
               (hset (txt "Access-Control-Allow-Headers") (txt "Origin, X-Requested-With, Content-Type, Accept, Range") r) else r in
    if f_nocomp c then hset (txt "Content-Encoding") [] r else r.
  (* file_server.rs:468-479 *)
  Definition meta_headers (mt : option N) (len : N) (r : fresp) : fresp :=
    let r := match mt with Some s => hset (txt "Last-Modified") (fmt_date s) r | None => r end in
    hset (txt "ETag") (calc_etag mt len) r.
  (* file_server.rs:479-494: are ranges looked at, and if not does the function return *)
  Definition range_wanted (q : freq) : bool :=
    match q_accept_ranges q with Some v => leqb v (txt "bytes") | None => true end.
  (* file_server.rs:485-496 *)
  Definition if_range_ok (q : freq) (mt : option N) (len : N) : bool :=
    match q_if_range q with
    | None => true
    | Some v => leqb v (calc_etag mt len) || ((calc_lastmodified v =? secs mt) && negb (secs mt =? 0))
    end.
  (* the length of a file body *)
  Definition body_len (b : fbody) : option N := match b with BFile _ c _ => Some (nlen c) | _ => None end.
  (* Body::set_start_end (file_server.rs:500) *)
  Definition with_part (b : fbody) (s e : N) : fbody := match b with BFile n c _ => BFile n c (Some (s, e)) | b => b end.
  (* file_server.rs:517-523 *)
  Definition head_body (q : freq) (len : N) (r : fresp) : fresp :=
    if q_head q then hset (txt "Content-Length") (show len) (hset (txt "Accept-Ranges") (txt "bytes") (set_body BNone r)) else r.
  (* file_server.rs:440-527, with metadata; the flag is false when the function returns Err *)
  Definition after_file (c : fcfg) (q : freq) (mt : option N) (len : N) (r0 : fresp) : fresp * bool :=
    let r := meta_headers mt len (plain_headers c r0) in
    if range_wanted q then
      if if_range_ok q mt len then
        match q_range q with
        | None => (head_body q len r, true)
        | Some v =>
          match calc_bytes_range v len with
          | Some (s, e) =>
            if seek (body_len (s_body r)) s e then
              (head_body q len (set_status 206 (hset (txt "Content-Range") (content_range s e len) (set_body (with_part (s_body r) s e) r))), true)
            else (r, false)
          | None => (head_body q len (set_body BNone (hset (txt "Content-Range") (no_range len) (set_status 416 r))), true)
          end
        end
      else (r, true)
    else (head_body q len r, true).

  (* file_server.rs:369-398 *)
  Definition try_cache (c : fcfg) (q : freq) (mt : option N) (len : N) : option fresp :=
    let not_modified := fst (after_file c q mt len (FResp 304 [] BNone)) in
    if (match q_inm q with Some v => leqb v (calc_etag mt len) | None => false end) then Some not_modified
    else match q_ims q, mt with
         | Some v, Some s => if calc_lastmodified v =? s then Some not_modified else None
         | _, _ => None
         end.

  (* file_server.rs:332, 359 *)
  Definition content_type (m : text) : text := m ++ txt "; charset=utf-8".
  (* opening and answering with the file found under names; enc: Content-Encoding *)
  Definition send_file (c : fcfg) (q : freq) (mime : text) (names : list text) (enc : option text) : res unit fresp :=
    match at_names fs names with
    | Some (File content mt) =>
      let len := nlen content in
      match try_cache c q mt len with
      | Some r => Ok r
      | None =>
        let r := FResp 200 [] (BFile names content None) in
        let r := match enc with Some e => hset (txt "Content-Encoding") e r | None => r end in
        let r := hset (txt "Transfer-Encoding") (txt "chunked") (hset (txt "Content-Type") (content_type mime) r) in
        let (r, ok) := after_file c q mt len r in
        if ok then Ok r else Err tt
      end
    | _ => Err tt
    end.
  (* file_server.rs:298-338: the first precompressed file the client accepts *)
  Fixpoint find_pre (pre : list text) (accept : text) (real : text) : option (text * list text) :=
    match pre with
    | [] => None
    | e :: pre' =>
      if contains e accept then
        match (if leqb e (txt "gzip") then Some (txt ".gz") else if leqb e (txt "br") then Some (txt ".br") else None) with
        | None => find_pre pre' accept real
        | Some suffix =>
          match resolve fs cwd (real ++ suffix) with
          | Some names => Some (e, names)
          | None => find_pre pre' accept real
          end
        end
      else find_pre pre' accept real
    end.
  (* file_server.rs:287-367.  Simplified: a directory opened as a file (which only
     fails once it is read) is an error here. *)
  Definition by_file (c : fcfg) (q : freq) (real : text) : res unit (option fresp) :=
    let mime := get_mimetype c (extension real) in
    match (match q_accept q with Some a => find_pre (f_pre c) a real | None => None end) with
    | Some (e, names) => do r <- send_file c q mime names (Some e) ; Ok (Some r)
    | None =>
      match resolve fs cwd real with
      | None => Ok None
      | Some names => do r <- send_file c q mime names None ; Ok (Some r)
      end
    end.

  (* file_server.rs:246-250: webparse's builder refuses a status that is not of three
     digits, and unwrap panics *)
  Definition plain_error (c : fcfg) (msg : text) : res unit fresp :=
    if (100 <=? f_status c) && (f_status c <? 1000) then Ok (FResp (f_status c) [] (BText msg)) else Panic.
  (* file_server.rs:238-251 *)
  Definition ret_error (c : fcfg) (q : freq) (msg : text) : res unit fresp :=
    if f_status c =? 404 then
      match f_path404 c with
      | Some p => match by_file c q p with Ok (Some r) => Ok r | Panic => Panic | _ => plain_error c msg end
      | None => plain_error c msg
      end
    else plain_error c msg.

  (* file_server.rs:574-582 *)
  Fixpoint find_index (ixs : list text) (real : text) : text :=
    match ixs with
    | [] => real
    | i :: ixs' => match resolve fs cwd (join real i) with Some _ => join real i | None => find_index ixs' real end
    end.
  (* Path::is_dir *)
  Definition is_dir (p : text) : bool := match resolve fs cwd p with Some ns => is_dir_at fs ns | None => false end.
  (* read_dir (file_server.rs:596) *)
  Definition entries (ns : list text) : list text := match at_names fs ns with Some (Dir es) => map fst es | _ => [] end.
  (* file_server.rs:598-643: the links; backslashes become slashes *)
  Definition slashes (s : text) : text := map (fun x => if x =? 92 then 47 else x) s.
  (* file_server.rs:598-640: one link per entry not hidden.  Simplified: strip_prefix drops the
     text of the root, which the path begins with unless the index is an absolute path *)
  Definition list_dir (c : fcfg) (root real : text) (ns : list text) : list (text * text) :=
    map (fun n => (f_prefix c ++ slashes (txt "/" ++ strip_lead (skipn (length root) (join real n))), n))
      (filter (fun n => negb (is_hide c (join real n))) (entries ns)).

  (* file_server.rs:599-602: strip_prefix fails for an entry that is not under the root *)
  Definition strip_fails (c : fcfg) (root real : text) (ns : list text) : bool :=
    existsb (fun n => negb (is_hide c (join real n)) && negb (path_starts_with (join real n) root)) (entries ns).

  (* file_server.rs:556-559 *)
  Definition root_of (c : fcfg) : text := match f_root c with Some [] | None => cwd_text | Some r => r end.
  (* file_server.rs:551-555 *)
  Definition decoded (p : text) : text := if contains (txt "%") p then match decode p with Some d => d | None => p end else p.
  (* file_server.rs:529-678 *)
  Definition deal (c : fcfg) (q : freq) : res unit fresp :=
    match (if leqb (q_path q) (txt "/robots.txt") then f_robots c else None) with
    | Some t => Ok (plain_headers c (FResp 200 [(txt "Content-Type", txt "text/plain; charset=utf-8"); (txt "Content-Length", show (nlen t)); (txt "Transfer-Encoding", txt "chunked")] (BText t)))
    | None =>
      if starts_with (f_prefix c) (q_path q) then
        let path := decoded (q_path q) in
        let root := root_of c in
        match strip_prefix (f_prefix c) path with
        | None => Panic
        | Some h =>
          let href := if starts_with (txt "/") h then h else txt "/" ++ h in
          let real := root ++ href in
          if negb (path_starts_with real root) || is_hide c root then ret_error c q (txt "can't view parent file")
          else
            let real := if is_dir real then find_index (f_index c) real else real in
            match (if is_dir real then resolve fs cwd real else None) with
            | Some ns =>
              if f_browse c then
                if strip_fails c root real ns then Panic else
                let r := FResp 200 [(txt "Content-Type", txt "text/html; charset=utf-8")] (BList ns (list_dir c root real ns)) in
                Ok (if f_nocomp c then hset (txt "Content-Encoding") [] r else r)
              else ret_error c q (txt "can't view parent file")
            | None =>
              if is_hide c path then ret_error c q (txt "can't view file")
              else do o <- by_file c q real ;
                   match o with Some r => Ok r | None => ret_error c q (txt "can't view file") end
            end
        end
      else ret_error c q (txt "unknow path")
    end.
End Server.
