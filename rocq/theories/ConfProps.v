(* C25, C26, C27, C45 and C54-C57: configuration values. *)
From Coq Require Import String.
From Verif Require Import Base Text TextOps ConfModel ConfSpec ConfProofs.
Open Scope N_scope.

(* C25: a size, printed and read back, is the same size; n followed by a unit
   letter means n times the power of 1024 of that letter. *)
Theorem C25_sizes : forall n, n <= u64_max -> parse_size (show_size n) = Ok n.
Proof. exact size_roundtrip. Qed.
Theorem C25_units : forall n u k, In (u, k) letters -> n * 1024 ^ k <= u64_max ->
  parse_size (show n ++ u) = Ok (n * 1024 ^ k).
Proof.
  intros n u k Hin Hn.
  assert (n <= u64_max). { pose proof (N.pow_nonzero 1024 k ltac:(lia)). nia. }
  unfold letters in Hin.
  repeat (destruct Hin as [E|Hin]; [injection E as <- <-; apply parse_size_unit; [reflexivity|lia|assumption|exact Hn]|]).
  contradiction.
Qed.
Theorem C25_plain : forall n, n <= u64_max -> parse_size (show n) = Ok n.
Proof. exact parse_size_show. Qed.
Example C25_demo : show_size (5 * 1024 ^ 3) = txt "5g" /\ parse_size (txt "5G") = Ok (5 * 1024 ^ 3) /\
  show_size 1024 = txt "1024" /\ show_size 2048 = txt "2k".
Proof. vm_compute. repeat split. Qed.

(* C26: false of the code.  5.001 seconds print as 5001ms and are read as
   0.706032704 seconds; a duration with parts below a millisecond loses them. *)
Theorem C26_durations_refuted :
  (show_dur 5001000000 = Ok (txt "5001ms") /\ parse_dur (txt "5001ms") = Ok 706032704) /\
  (show_dur 1000000500 = Ok (txt "1s") /\ parse_dur (txt "1s") = Ok 1000000000).
Proof. vm_compute. repeat split. Qed.
(* Proved: exactly which durations (any number of u64 seconds, in nanoseconds)
   survive: whole seconds, and whole milliseconds below 2^32 ns. *)
Theorem C26_durations_partial : forall d, d / 1000000000 <= u64_max ->
  ((exists t, show_dur d = Ok t /\ parse_dur t = Ok d) <->
   (d mod 1000000000 = 0 \/ d mod 1000000 = 0 /\ d < 2 ^ 32)).
Proof. exact dur_iff. Qed.
Theorem C26_units : forall n, n * 3600 <= u64_max ->
  parse_dur (show n ++ txt "h") = Ok (n * 3600 * 1000000000) /\
  parse_dur (show n ++ txt "min") = Ok (n * 60 * 1000000000) /\
  parse_dur (show n ++ txt "s") = Ok (n * 1000000000) /\
  (n * 1000000 < 2 ^ 32 -> parse_dur (show n ++ txt "ms") = Ok (n * 1000000)).
Proof.
  intros n H. split; [apply parse_h; exact H|]. split; [apply parse_min; lia|]. split; [apply parse_s; lia|].
  change (2 ^ 32) with 4294967296.
  intros L. rewrite parse_ms by (unfold u64_max in *; lia). f_equal. change (2 ^ 32) with 4294967296. apply N.mod_small. exact L.
Qed.
Example C26_demo : show_dur (7500 * 1000000000) = Ok (txt "125min") /\ show_dur 102000000 = Ok (txt "102ms").
Proof. vm_compute. split; reflexivity. Qed.

(* C27: replace does what add does: whatever appending a header means, the two
   operators cannot both keep their promise. *)
Theorem C27_replace_refuted : ~ exists push, forall r h,
  values leqb (ch_key r) (rewrite_with leqb (fun v => v) push r h) = after_rule (ch_oper r) (ch_val r) (values leqb (ch_key r) h).
Proof.
  intros (push & H).
  pose proof (H (CHeader OAdd true [1] [2]) [([1], [3])]) as A.
  pose proof (H (CHeader OReplace true [1] [2]) [([1], [3])]) as R.
  unfold rewrite_with in *. cbn [ch_oper ch_key ch_val] in *. rewrite A in R. vm_compute in R. discriminate.
Qed.
(* With a push that appends, the other operators are right, for every rule, every
   header list, every comparison of names and every placeholder expansion; and no
   operator touches a header of another name. *)
Theorem C27_rules_partial : forall same conv r h, same (ch_key r) (ch_key r) = true ->
  others same (ch_key r) (rewrite_header same conv r h) = others same (ch_key r) h /\
  (ch_oper r <> OReplace ->
   values same (ch_key r) (rewrite_header same conv r h) = after_rule (ch_oper r) (conv (ch_val r)) (values same (ch_key r) h)) /\
  (ch_oper r = OReplace -> values same (ch_key r) h = [] ->
   values same (ch_key r) (rewrite_header same conv r h) = [conv (ch_val r)]).
Proof.
  intros same conv r h Hr. destruct (rewrite_spec same conv r h Hr) as [A B]. split; [exact A|]. rewrite B.
  split; [destruct (ch_oper r); intros C; try reflexivity; [destruct (values same (ch_key r) h); reflexivity|contradiction]|].
  intros -> ->. reflexivity.
Qed.
(* The rules marked proxy apply to the request, the others to the response, in
   order; a header that no such rule names comes out exactly as it was. *)
Theorem C27_lists : forall same conv rs h, (forall k, same k k = true) ->
  rewrite_request same conv rs h = fold_left (fun a r => rewrite_header same conv r a) (filter ch_proxy rs) h /\
  rewrite_response same conv rs h = fold_left (fun a r => rewrite_header same conv r a) (filter (fun r => negb (ch_proxy r)) rs) h /\
  (let names := map ch_key (filter ch_proxy rs) in
   untouched same names (rewrite_request same conv rs h) = untouched same names h) /\
  (let names := map ch_key (filter (fun r => negb (ch_proxy r)) rs) in
   untouched same names (rewrite_response same conv rs h) = untouched same names h).
Proof.
  intros same conv rs h Hr.
  assert (A : rewrite_request same conv rs h = fold_left (fun a r => rewrite_header same conv r a) (filter ch_proxy rs) h) by apply fold_filter.
  assert (B : rewrite_response same conv rs h = fold_left (fun a r => rewrite_header same conv r a) (filter (fun r => negb (ch_proxy r)) rs) h) by apply fold_filter_neg.
  split; [exact A|]. split; [exact B|]. rewrite A, B. cbv zeta.
  split; apply rules_untouched; intros; apply Hr.
Qed.
Example C27_demo :
  let h := [(txt "a", txt "1"); (txt "b", txt "2")] in
  rewrite_request leqb (fun v => v) [CHeader OAdd true (txt "a") (txt "3"); CHeader ODel false (txt "b") []; CHeader ODefault true (txt "c") (txt "4")] h
  = h ++ [(txt "a", txt "3"); (txt "c", txt "4")].
Proof. vm_compute. reflexivity. Qed.

(* C45: false of the code: raw TCP prints as nothing, and UDP (0x16) shares bits
   with HTTPS and SOCKS5. *)
Theorem C45_kinds_refuted :
  (show_flag f_tcp = [] /\ parse_flag (show_flag f_tcp) = Err tt) /\
  (show_flag f_udp = txt "https socks5" /\ parse_flag (show_flag f_udp) = Ok (N.lor f_https f_socks5)).
Proof. vm_compute. repeat split. Qed.
(* Proved: any non-empty set of HTTP, HTTPS and SOCKS5 survives; of any other
   set exactly those three bits do.  The JSON number form keeps every set. *)
Theorem C45_kinds_partial : forall b, b < 32 -> b mod 8 <> 0 -> parse_flag (show_flag b) = Ok (b mod 8).
Proof. exact flag_text_low. Qed.
Theorem C45_json : forall b, b < 32 -> flag_of_json (flag_to_json b) = b.
Proof. exact flag_json. Qed.
(* a number that is no set of kinds is read as HTTP alone *)
Theorem C45_json_other : forall v, 32 <= v -> flag_of_json v = f_http.
Proof.
  intros v H. unfold flag_of_json, f_from_bits, f_all. change 31 with (N.ones 5). rewrite N.land_ones. change (2 ^ 5) with 32.
  destruct (N.eqb_spec (v mod 32) v) as [E|E]; [|reflexivity]. pose proof (N.mod_lt v 32 ltac:(lia)). lia.
Qed.
Example C45_demo : show_flag (N.lor f_http f_socks5) = txt "http socks5" /\ parse_flag (txt "socks5 HTTP") = Ok 5.
Proof. vm_compute. split; reflexivity. Qed.

(* C54: limit zones and limit_req settings survive display and parse, up to the
   durations C26 excludes: a zone whose period is not whole is changed. *)
Theorem C54_limits_refuted : forall dr,
  show_zone (LZone (txt "z") 1024 10 5001000000) = Ok (txt "z limit=1024 rate=10r/5001ms") /\
  parse_zone dr (txt "z limit=1024 rate=10r/5001ms") = Ok (LZone (txt "z") 1024 10 706032704).
Proof. intros dr. split; vm_compute; reflexivity. Qed.
Theorem C54_zone_partial : forall dr z,
  word (lz_key z) = true -> lz_limit z <= u64_max -> lz_nums z <= u64_max -> lz_per z / 1000000000 <= u64_max ->
  (lz_per z mod 1000000000 = 0 \/ lz_per z mod 1000000 = 0 /\ lz_per z < 2 ^ 32) ->
  exists s, show_zone z = Ok s /\ parse_zone dr s = Ok z.
Proof.
  intros dr z Hk Hl Hn Hp Hd. apply (proj2 (dur_iff (lz_per z) Hp)) in Hd as (t & Ht & Hpt).
  exact (zone_roundtrip dr z t Hk Hl Hn Ht Hpt).
Qed.
Theorem C54_limit_req : forall r,
  no_char 32 (lr_zone r) = true -> no_char 61 (lr_zone r) = true -> trim (lr_zone r) = lr_zone r -> lr_burst r <= u64_max ->
  parse_lreq (show_lreq r) = Ok r.
Proof. exact lreq_roundtrip. Qed.
(* The two parts of a limit_req setting may come in either order. *)
Theorem C54_order : forall z n,
  no_char 32 z = true -> no_char 61 z = true -> trim z = z -> n <= u64_max ->
  parse_lreq (txt "zone=" ++ z ++ txt " brust=" ++ show n) = Ok (LReq z n) /\
  parse_lreq (txt "brust=" ++ show n ++ txt " zone=" ++ z) = Ok (LReq z n).
Proof. intros z n A B C D. split; [exact (lreq_roundtrip (LReq z n) A B C D)|apply lreq_any_order; assumption]. Qed.
Example C54_demo : show_zone (LZone (txt "$ip") (10 * 1024 ^ 2) 10 1000000000) = Ok (txt "$ip limit=10m rate=10r/1s") /\
  show_lreq (LReq (txt "limit") 10) = txt "zone=limit brust=10".
Proof. vm_compute. split; reflexivity. Qed.

(* C55: false of the code: a default rule prints without its operator, a delete
   rule for the request without value is read back as replacing the header named
   by the operator, and values with blanks or quotes are not quoted. *)
Theorem C55_header_rules_refuted : forall k v, plain k = true ->
  (plain v = true -> parse_header (show_header (CHeader ODefault true k v)) = Ok (CHeader OReplace true k v) /\
    (k <> txt "-" -> parse_header (show_header (CHeader ODefault false k v)) = Ok (CHeader OReplace false k v))) /\
  parse_header (show_header (CHeader ODel true k [])) = Ok (CHeader OReplace true (txt "-") k) /\
  (forall a b, plain a = true -> plain b = true -> parse_header (show_header (CHeader OAdd false k (a ++ 32 :: b))) = Err tt).
Proof. exact header_lost. Qed.
(* Proved: every other rule made of plain words survives. *)
Theorem C55_header_rules_partial : forall h, plain (ch_key h) = true ->
  (plain (ch_val h) = true \/ (ch_val h = [] /\ ch_oper h = ODel /\ ch_proxy h = false)) ->
  ch_oper h <> ODefault -> (ch_oper h = OReplace -> ch_proxy h = false -> ch_key h <> txt "-") ->
  parse_header (show_header h) = Ok h.
Proof. exact header_roundtrip. Qed.
(* How a rule may be written: words separated by blanks, bare or in either kind of
   quotes, optionally after proxy and an operator.  Quoted words may contain blanks
   and the other quotes, and mean what is between the quotes. *)
Theorem C55_written : forall k v s,
  (forall t o, In (t, o) operators -> line [txt "proxy"; t; k; v] s -> parse_header s = Ok (CHeader o true k v)) /\
  (forall t o, In (t, o) operators -> line [t; k; v] s -> parse_header s = Ok (CHeader o false k v)) /\
  (line [txt "proxy"; k; v] s -> parse_header s = Ok (CHeader OReplace true k v)) /\
  (line [k; v] s -> k <> txt "-" -> parse_header s = Ok (CHeader OReplace false k v)) /\
  (line [txt "-"; k] s -> parse_header s = Ok (CHeader ODel false k [])).
Proof.
  intros k v s. split; [|split; [|split; [|split]]].
  - intros t o H L. rewrite (parse_line _ _ L). change (leqb (txt "proxy") (txt "proxy")) with true. cbn match.
    rewrite (proj1 (operators_parse t o H)). reflexivity.
  - intros t o H L. rewrite (parse_line _ _ L). destruct (operators_parse t o H) as [A B].
    destruct (leqb t (txt "proxy")) eqn:E; [apply leqb_ok in E; contradiction|]. rewrite A. reflexivity.
  - intros L. rewrite (parse_line _ _ L). reflexivity.
  - intros L H. rewrite (parse_line _ _ L). destruct (leqb k [45]) eqn:E; [apply leqb_ok in E; contradiction|]. reflexivity.
  - intros L. rewrite (parse_line _ _ L). reflexivity.
Qed.
Example C55_written_demo :
  line [txt "proxy"; txt "+"; txt "x-note"; txt "it's so"] (txt "proxy + x-note  " ++ [34] ++ txt "it's so" ++ [34]).
Proof.
  assert (P : forall w, plain w = true -> written w w) by (intros w H; left; split; [reflexivity|exact H]).
  apply (line_more (txt "proxy") (txt "proxy") [32] [txt "+"; txt "x-note"; txt "it's so"]);
    [apply P; reflexivity|discriminate|constructor; [reflexivity|constructor]|].
  apply (line_more (txt "+") (txt "+") [32] [txt "x-note"; txt "it's so"]); [apply P; reflexivity|discriminate|constructor; [reflexivity|constructor]|].
  apply (line_more (txt "x-note") (txt "x-note") [32; 32] [txt "it's so"]);
    [apply P; reflexivity|discriminate|constructor; [reflexivity|constructor; [reflexivity|constructor]]|].
  apply line_one. right. exists 34. split; [left; reflexivity|]. split; [|reflexivity].
  intros H. repeat (destruct H as [H|H]; [discriminate H|]). exact H.
Qed.
Example C55_demo : show_header (CHeader OAdd true (txt "key") (txt "val")) = txt "proxy + key val" /\
  plain (txt "x-forwarded-for") = true /\ plain (txt "{client_ip}") = true.
Proof. vm_compute. repeat split. Qed.

(* C56: configuration text crashes the parser: a header rule or a limit zone of
   blanks only, a size or a duration too large for 64 bits. *)
Theorem C56_no_crash_refuted : forall dr,
  parse_header (txt " ") = Panic /\ parse_zone dr (txt " ") = Panic /\
  parse_size (txt "16384p") = Panic /\ parse_dur (txt "5124095576030432h") = Panic.
Proof. intros dr. vm_compute. repeat split. Qed.
(* Proved: proxy kinds, log settings and limit_req settings never do; a header
   rule does exactly when it is not empty and has no word; a size exactly when
   the product does not fit. *)
Theorem C56_no_crash_partial : forall s,
  parse_flag s <> Panic /\ parse_log s <> Panic /\ parse_lreq s <> Panic /\
  (parse_header s = Panic <-> s <> [] /\ split_by_whitespace s = []) /\
  (parse_size s = Panic <-> exists b m n, last_byte s = Some b /\ unit_of b = Some m /\
     parse_uint u64_max (trim_end_p is_unit s) = Some n /\ u64_max < n * m).
Proof.
  intros s. split; [apply parse_flag_panic|]. split; [apply parse_log_panic|]. split; [apply parse_lreq_panic|].
  split; [apply parse_header_panic|apply parse_size_panic].
Qed.

(* A duration does exactly when its number times its unit does not fit; a rate
   exactly when its size or its duration does; a zone exactly when it has no word, or
   when an argument after readable ones does. *)
Theorem C56_durations_partial : forall s, parse_dur s = Panic <->
  exists u m n, written_unit s = Some (u, m) /\ parse_uint u64_max (trim_end_str u s) = Some n /\ u64_max < n * m.
Proof. exact parse_dur_panic. Qed.
Theorem C56_rates_partial : forall s, parse_rate s = Panic <->
  exists a b more, map trim (split_on 47 s) = a :: b :: more /\ s <> [] /\
    (parse_size a = Panic \/ (exists n, parse_size a = Ok n) /\ parse_dur b = Panic).
Proof. exact parse_rate_panic. Qed.
Theorem C56_zones_partial : forall dr s, parse_zone dr s = Panic <->
  split_ws s = [] \/
  exists key vs1 v vs2 k w more, split_ws s = key :: vs1 ++ v :: vs2 /\ (exists x, zone_args vs1 0 dr = Ok x) /\
    map trim (split_on 61 v) = k :: w :: more /\
    (k = txt "limit" /\ parse_size w = Panic \/ k = txt "rate" /\ parse_rate w = Panic).
Proof. exact parse_zone_panic. Qed.
Example C56_panics : parse_dur (txt "307445734561825861min") = Panic /\ parse_dur (txt "307445734561825860min") <> Panic /\
  parse_rate (txt "16384r/s") = Ok (16384, 1000000000) /\ parse_rate (txt "16384p/s") = Panic /\
  parse_zone (1, 1) (txt "a limit=16384p") = Panic.
Proof. vm_compute. repeat split. discriminate. Qed.
Print Assumptions C56_durations_partial.
Print Assumptions C56_rates_partial.
Print Assumptions C56_zones_partial.

(* C57: log settings survive display and parse.  An error log setting is read as
   a file and a level. *)
Theorem C57_logs : forall l, no_char 32 (l_name l) = true -> no_char 32 (l_format l) = true ->
  (l_format l <> [] -> parse_log (show_log l) = Ok l) /\
  (l_format l = [] -> exists l', parse_log (show_log l) = Ok l' /\ as_error l' = l).
Proof.
  intros l H1 H2. split; [intros H3; exact (log_roundtrip l H1 H2 H3)|intros H3; exact (error_log_roundtrip l H1 H3)].
Qed.
Example C57_demo : show_log (CLog (txt "access") (txt "main") LInfo) = txt "access main INFO" /\
  show_log (CLog (txt "error") [] LWarn) = txt "error WARN".
Proof. vm_compute. split; reflexivity. Qed.

Print Assumptions C25_sizes.
Print Assumptions C25_units.
Print Assumptions C25_plain.
Print Assumptions C26_durations_refuted.
Print Assumptions C26_durations_partial.
Print Assumptions C26_units.
Print Assumptions C27_replace_refuted.
Print Assumptions C27_rules_partial.
Print Assumptions C27_lists.
Print Assumptions C45_kinds_refuted.
Print Assumptions C45_kinds_partial.
Print Assumptions C45_json.
Print Assumptions C45_json_other.
Print Assumptions C54_limits_refuted.
Print Assumptions C54_zone_partial.
Print Assumptions C54_limit_req.
Print Assumptions C54_order.
Print Assumptions C55_header_rules_refuted.
Print Assumptions C55_header_rules_partial.
Print Assumptions C55_written.
Print Assumptions C56_no_crash_refuted.
Print Assumptions C56_no_crash_partial.
Print Assumptions C57_logs.
