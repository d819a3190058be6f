(* The HTTP proxy and the choice between HTTP and SOCKS5 on one port:
   src/proxy/http.rs, src/proxy/server.rs.

   Not modelled: the HTTP parser and client of wenmeng (a request arrives as a
   record, the target's answer is an input), header rules (ConfModel.v). *)
From Coq Require Import String.
From Verif Require Import Base Text TextOps ConfModel AddrModel SocksModel.
Open Scope N_scope.

(* ---- base64, STANDARD engine: padding required, unused bits zero ---------------- *)
Definition b64_digit (c : N) : option N :=
  if (65 <=? c) && (c <=? 90) then Some (c - 65)
  else if (97 <=? c) && (c <=? 122) then Some (c - 71)
  else if (48 <=? c) && (c <=? 57) then Some (c + 4)
  else if c =? 43 then Some 62
  else if c =? 47 then Some 63
  else None.
(* base64 crate, standard alphabet: four digits *)
Definition b64_full (a b c d : N) : option bytes :=
  match b64_digit a, b64_digit b, b64_digit c, b64_digit d with
  | Some w, Some x, Some y, Some z => Some [w * 4 + x / 16; x mod 16 * 16 + y / 4; y mod 4 * 64 + z]
  | _, _, _, _ => None
  end.
(* base64 crate: the last group, with padding *)
Definition b64_last (a b c d : N) : option bytes :=
  if d =? 61 then
    if c =? 61 then
      match b64_digit a, b64_digit b with
      | Some w, Some x => if x mod 16 =? 0 then Some [w * 4 + x / 16] else None
      | _, _ => None
      end
    else
      match b64_digit a, b64_digit b, b64_digit c with
      | Some w, Some x, Some y => if y mod 4 =? 0 then Some [w * 4 + x / 16; x mod 16 * 16 + y / 4] else None
      | _, _, _ => None
      end
  else b64_full a b c d.
(* base64 decoding, engine STANDARD (src/proxy/http.rs:52-58) *)
Fixpoint b64_decode (s : text) : option bytes :=
  match s with
  | [] => Some []
  | [a; b; c; d] => b64_last a b c d
  | a :: b :: c :: d :: r =>
    match b64_full a b c d, b64_decode r with Some x, Some y => Some (x ++ y) | _, _ => None end
  | _ => None
  end.

(* proxy/http.rs:42-72.  String::from_utf8 is left out: bytes equal to u:p are UTF-8, as
   u and p are strings. *)
Definition check_basic_auth (u p : bytes) (v : text) : res unit bool :=
  match split_ws v with
  | [] => Panic
  | [_] => Ok false
  | _ :: tok :: _ =>
    match b64_decode tok with
    | None => Panic
    | Some r => match split_on 58 r with [x; y] => Ok (leqb x u && leqb y p) | _ => Ok false end
    end
  end.

(* ---- proxy/http.rs:93-153 operate ---------------------------------------------------- *)
(* q_auth: the value of Proxy-Authorization, if it is there and text *)
Record hreq := HReq { q_connect : bool; q_host : option text; q_auth : option text }.
(* src/proxy/http.rs:26-29 *)
Record hcfg := HCfg { h_user : option bytes; h_pass : option bytes }.
(* src/proxy/http.rs:118: both must be configured *)
Definition h_auth (c : hcfg) : option (bytes * bytes) :=
  match h_user c, h_pass c with Some u, Some p => Some (u, p) | _, _ => None end.
(* the connection kept for later requests, and the one to be tunnelled *)
Record hst := HSt { k_conn : option text; k_tunnel : option text }.
(* HDial: a TCP connection to the target; HSend: a request sent to it, with the
   Proxy-Authorization it carries *)
Inductive hev := HDial (h : text) | HSend (h : text) (auth : option text) | HTunnel (h : text).
(* what comes back from the target is an input: an answer, an error, or nothing *)
Inductive hans := HStatus (n : N) | HBackend.
(* src/proxy/http.rs:141-150 *)
Definition relay_answer (reply : option bool) : res unit hans := match reply with Some true => Ok HBackend | _ => Err tt end.
(* src/proxy/http.rs:93-153 *)
Definition h_operate (c : hcfg) (s : hst) (q : hreq) (dial : bool) (reply : option bool) : hst * list hev * res unit hans :=
  match k_conn s with
  | Some t => (s, [HSend t (q_auth q)], relay_answer reply)
  | None =>
    match q_host q with
    | None => (s, [], Err tt)
    | Some h =>
      if negb dial then (s, [HDial h], Err tt)
      else
        let go (auth : option text) :=
          if q_connect q then (HSt (k_conn s) (Some h), [HDial h; HTunnel h], Ok (HStatus 200))
          else (match reply with Some _ => HSt (Some h) (k_tunnel s) | None => s end, [HDial h; HSend h auth], relay_answer reply) in
        match h_auth c with
        | None => go (q_auth q)
        | Some (u, p) =>
          match match q_auth q with Some v => check_basic_auth u p v | None => Ok false end with
          | Ok true => go None
          | Ok false => (s, [HDial h], Ok (HStatus 407))
          | _ => (s, [HDial h], Panic)
          end
        end
    end
  end.
(* one client connection: requests one after the other.  The server may end it
   earlier; every such run is a prefix. *)
Fixpoint h_run (c : hcfg) (s : hst) (qs : list (hreq * bool * option bool)) : hst * list (list hev * res unit hans) :=
  match qs with
  | [] => (s, [])
  | (q, dial, reply) :: qs' =>
    let '(s1, ev, a) := h_operate c s q dial reply in
    let '(s2, l) := h_run c s1 qs' in (s2, (ev, a) :: l)
  end.

(* ---- proxy/server.rs:34-91 deal_proxy with proxy/http.rs:166-194 --------------------------------- *)
(* who gets the connection, with what has been read and what is to come; room is
   the size of the first read buffer (24 or more) *)
Inductive handler := ToHttp (i : inp) | ToSocks (i : inp) | Nobody | Refused.
(* src/proxy/server.rs:63-75 *)
Definition has_http (flag : N) : bool := f_contains flag f_http || f_contains flag f_https.
(* src/proxy/server.rs:77-92 *)
Definition to_socks (flag : N) (i : inp) : handler := if f_contains flag f_socks5 then ToSocks i else Nobody.
(* what is left of a segment stays in the socket *)
Definition put_back (s : bytes) (segs : list bytes) : list bytes := match s with [] => segs | _ => s :: segs end.
(* src/proxy/server.rs:34-60 *)
Definition detect (flag : N) (room : nat) (segs : list bytes) : handler :=
  if has_http flag then
    match segs with
    | [] => Refused
    | s :: segs' =>
      match firstn room s with
      | [] => Refused
      | b :: r => let i := (b :: r, put_back (skipn room s) segs') in if b =? 5 then to_socks flag i else ToHttp i
      end
    end
  else to_socks flag ([], segs).
