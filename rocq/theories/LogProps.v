(* Log patterns: theorems. *)
From Coq Require Import String.
From Verif Require Import Base Text TextOps LogModel LogSpec LogProofs LogEncode LogParse LogShow.
Open Scope N_scope.

(* ASCII letters and digits, for the concrete cases *)
Definition a_alpha (c : N) : bool := ((65 <=? c) && (c <=? 90)) || ((97 <=? c) && (c <=? 122)).
Definition a_alnum (c : N) : bool := a_alpha c || is_digit c.
Example ex_syntax : syntax_ok a_alpha a_alnum.
Proof. intros c I. cbn [In] in I. intuition; subst c; reflexivity. Qed.
Definition ex_rec (m : list text) (l : level) : record :=
  Record_ l m (Some (txt "app")) None (Some 7) (txt "app") (Some (txt "main")) (txt "ThreadId(1)") 42
    (Some (Req (Some (txt "10.0.0.1:99")) [txt "/a"; txt "?b"] (txt "/a") (Some (txt "b")) None None None None)) (Some [txt "200 "; txt "OK"]).
Definition no_clock : text -> bool -> option (list text) := fun _ _ => None.
Definition ascii (l : list ch) : text := flat_map (fun x => match x with C c => [c] | S_ _ => [] end) l.

Section Thms.
  Context (alpha alnum : N -> bool) (SY : syntax_ok alpha alnum) (now : text -> bool -> option (list text)) (r : record).

  (* C43: text with its special characters doubled or escaped is written as it is *)
  Theorem C43_text t s out sched : prints alpha alnum false (map TC t) s ->
    exists sched', log_line now r alpha alnum s (Base out sched) = Some (Base (out ++ ib (utf8 t)) sched').
  Proof.
    intro P. assert (T := parse_ok alpha alnum SY s _ P). unfold log_line. assert (Q := line_ok now r (map chunk_of (parse alpha alnum s)) out sched (or_intror (calm_text r _ t T))).
    assert (S := pieces_shown now r adjusted (parse alpha alnum s) (chars_of t)). rewrite T, shows_text in S. rewrite (S eq_refl) in Q. destruct (encode_seq _ _ _ _) as [w|]; [|contradiction]. destruct Q as (sched' & ->). exists sched'. now rewrite wire_chars.
  Qed.
  (* and every text can be written that way *)
  Theorem C43_every_text t : exists s, prints alpha alnum false (map TC t) s.
  Proof. induction t as [|c t (s & P)]; [exists []; constructor|]. destruct (special c) eqn:S. - exists (c_bs :: c :: s). now apply pr_escape. - exists (c :: s). now apply pr_plain. Qed.

  (* What any pattern writes: for every field, first padded, then cut. *)
  Theorem C44_line s ts L out sched : prints alpha alnum false ts s -> shows_all r adjusted ts = Some L ->
    (sched = [] \/ (rc_req r <> None /\ rc_status r <> None /\ forallb no_ip ts = true)) ->
    exists sched', log_line now r alpha alnum s (Base out sched) = Some (Base (out ++ wire L) sched').
  Proof.
    intros P SL E. assert (T := parse_ok alpha alnum SY s _ P). unfold log_line.
    assert (E' : sched = [] \/ forallb (calm r) (map chunk_of (parse alpha alnum s)) = true) by (destruct E as [E|(E1 & E2 & E3)]; [now left|right; apply calm_pieces; [assumption|assumption|now rewrite T]]).
    assert (Q := line_ok now r (map chunk_of (parse alpha alnum s)) out sched E'). assert (S := pieces_shown now r adjusted (parse alpha alnum s) L). rewrite T in S. rewrite (S SL) in Q. destruct (encode_seq _ _ _ _) as [w|]; [|contradiction]. destruct Q as (sched' & ->). exists sched'. reflexivity.
  Qed.
  (* C44: where no minimum is above its maximum: cut to the maximum, padded to the minimum.
     Missing: the others, see C44_lost_refuted. *)
  Theorem C44_width_partial s ts L out sched : prints alpha alnum false ts s -> forallb sane_tok ts = true -> shows_all r documented ts = Some L ->
    (sched = [] \/ (rc_req r <> None /\ rc_status r <> None /\ forallb no_ip ts = true)) ->
    exists sched', log_line now r alpha alnum s (Base out sched) = Some (Base (out ++ wire L) sched').
  Proof. intros P SA SL E. rewrite sane_shows_all in SL by exact SA. exact (C44_line s ts L out sched P SL E). Qed.
  (* the widths are in characters and always within the maximum; the minimum is kept when
     it is not above the maximum *)
  Theorem C44_bounds p l : (forall M, p_max p = Some M -> width (adjusted p l) <= M) /\ (forall m, p_min p = Some m -> sane p = true -> m <= width (adjusted p l)).
  Proof.
    split.
    - intros M H. unfold adjusted. rewrite H. rewrite width_cut. lia.
    - intros m H S. unfold sane in S. unfold adjusted. rewrite H in *. destruct (p_max p) as [M|]; rewrite ?width_cut, width_pad; [apply N.leb_le in S|]; lia.
  Qed.
  (* false of the code: aligned to the right with a minimum above the maximum, a short
     field is not shown at all *)
  Theorem C44_lost_refuted f m M l : M + width l <= m -> adjusted (Params f true (Some m) (Some M)) l = repeat (C f) (N.to_nat M) ++ cut 0 l.
  Proof.
    intro H. unfold adjusted, pad. cbn [p_min p_max p_right p_fill].
    replace (N.to_nat (m - width l)) with (N.to_nat M + N.to_nat (m - width l - M))%nat by lia. rewrite repeat_app, <- app_assoc. rewrite cut_app by (rewrite width_repeat; lia). f_equal. rewrite width_repeat. replace (M - N.of_nat (N.to_nat M)) with 0 by lia.
    induction (N.to_nat (m - width l - M)) as [|k IH]; [reflexivity|]. cbn [repeat app cut]. exact IH.
  Qed.

  (* C77: the documented grammar is read as it is written.  Missing: doubled closing
     parentheses in arguments, and empty format specifications before < or > *)
  Theorem C77_grammar_partial s ts : prints alpha alnum false ts s -> toks_all (parse alpha alnum s) = ts.
  Proof. apply parse_ok. exact SY. Qed.
  (* every pattern is read to its end: the bounds of the model are never reached *)
  Theorem C77_terminates s n m : (length s < n)%nat -> (2 * length s + 1 <= m)%nat -> pieces alpha alnum n m s = parse alpha alnum s.
  Proof. intros. unfold parse. apply pieces_fuel; lia. Qed.

  (* C78: every documented field that is implemented shows its value *)
  Theorem C78_field_partial s nm v par out : prints alpha alnum false [TA nm [] par] s -> value r nm = Some v ->
    log_line now r alpha alnum s (Base out []) = Some (Base (out ++ wire (adjusted par (chars_of v))) []).
  Proof.
    intros P V. destruct (C44_line s _ (adjusted par (chars_of v)) out [] P) as (sched' & E).
    - rewrite shows_single. destruct nm; cbn [shows]; rewrite V; reflexivity.
    - now left.
    - rewrite E. f_equal. f_equal. destruct sched' as [|k sched']; [|exfalso]; [reflexivity|]. revert E. unfold log_line. intro E.
      assert (Q : eager (Base (out ++ wire (adjusted par (chars_of v))) (k :: sched'))).
      { assert (F : Forall (enc_ok now r) (map chunk_of (parse alpha alnum s))) by (apply Forall_forall; intros c _; apply all_enc). assert (Q := seq_ok now r _ F (Base out []) I (or_introl eq_refl)). rewrite E in Q. destruct (shown_all _ _ _ _); [|contradiction]. apply Q. reflexivity. }
      discriminate Q.
  Qed.
  (* C78: a date shows the time in the named zone, by default the local one, in the given
     format *)
  Theorem C78_date nm f zone utc par sp l out : In nm [txt "d"; txt "date"] -> is_ident alpha alnum nm -> plain f ->
    In (zone, utc) [(txt "(utc)", true); (txt "(local)", false); ([], false)] -> spec_prints par sp -> now f utc = Some l ->
    exists sched', log_line now r alpha alnum (txt "{" ++ nm ++ txt "(" ++ f ++ txt ")" ++ zone ++ sp ++ txt "}") (Base out []) = Some (Base (out ++ wire (adjusted par (chars_of (List.concat l)))) sched').
  Proof.
    intros NM ID PF Z SP NW. unfold log_line.
    assert (PZ : exists zs, zone = flat_map (fun a => c_lp :: a ++ [c_rp]) zs /\ Forall plain zs /\ chunk_of (PArg nm (map (fun a => [PText a]) (f :: zs)) par) = CTime f utc par).
    { assert (FL : forall x : text, x ++ [] = x) by (intro; apply app_nil_r).
      destruct Z as [Z|[Z|[Z|[]]]]; injection Z as <- <-; [exists [txt "utc"]|exists [txt "local"]|exists []]; (split; [reflexivity|]); (split; [repeat constructor; discriminate|]);
        destruct NM as [<-|[<-|[]]]; cbn [map chunk_of]; unfold is_name; cbn [nth_error flat_map date_part]; rewrite FL; reflexivity. }
    destruct PZ as (zs & -> & FZ & CH).
    assert (PP := parse_plain alpha alnum SY nm (f :: zs) par sp ID (Forall_cons _ PF FZ) SP).
    replace (txt "{" ++ nm ++ txt "(" ++ f ++ txt ")" ++ flat_map (fun a => c_lp :: a ++ [c_rp]) zs ++ sp ++ txt "}") with (c_lb :: nm ++ flat_map (fun a => c_lp :: a ++ [c_rp]) (f :: zs) ++ sp ++ [c_rb])
      by (cbn [flat_map]; change (txt "{") with [c_lb]; change (txt "(") with [c_lp]; change (txt ")") with [c_rp]; change (txt "}") with [c_rb]; cbn [app]; rewrite <- !app_assoc; reflexivity).
    rewrite PP. cbn [map]. cbn [map] in CH. rewrite CH.
    assert (Q := line_ok now r [CTime f utc par] out [] (or_introl eq_refl)). cbn [shown_all shown] in Q. rewrite NW in Q. rewrite app_nil_r in Q.
    destruct (encode_seq _ _ _ _) as [w|]; [|contradiction]. destruct Q as (sched' & ->). exists sched'. reflexivity.
  Qed.
  (* without a format: the complete local time, ISO 8601 *)
  Theorem C78_date_default nm par sp l out : In nm [txt "d"; txt "date"] -> is_ident alpha alnum nm -> spec_prints par sp -> now (txt "%+") false = Some l ->
    exists sched', log_line now r alpha alnum (txt "{" ++ nm ++ sp ++ txt "}") (Base out []) = Some (Base (out ++ wire (adjusted par (chars_of (List.concat l)))) sched').
  Proof.
    intros NM ID SP NW. unfold log_line.
    assert (PP := parse_plain alpha alnum SY nm [] par sp ID (Forall_nil _) SP). cbn [flat_map app] in PP.
    change (txt "{" ++ nm ++ sp ++ txt "}") with (c_lb :: nm ++ sp ++ [c_rb]). rewrite PP. cbn [map].
    assert (CH : chunk_of (PArg nm [] par) = CTime (txt "%+") false par) by (destruct NM as [<-|[<-|[]]]; reflexivity). rewrite CH.
    assert (Q := line_ok now r [CTime (txt "%+") false par] out [] (or_introl eq_refl)). cbn [shown_all shown] in Q. rewrite NW in Q. rewrite app_nil_r in Q.
    destruct (encode_seq _ _ _ _) as [w|]; [|contradiction]. destruct Q as (sched' & ->). exists sched'. reflexivity.
  Qed.
  (* any other zone is reported in the line, no time is shown *)
  Theorem C78_date_zone nm f zone par sp out : In nm [txt "d"; txt "date"] -> is_ident alpha alnum nm -> plain f -> plain zone ->
    zone <> txt "utc" -> zone <> txt "local" -> spec_prints par sp ->
    exists sched', log_line now r alpha alnum (txt "{" ++ nm ++ txt "(" ++ f ++ txt ")(" ++ zone ++ txt ")" ++ sp ++ txt "}") (Base out []) =
      Some (Base (out ++ ib (utf8 (txt "{ERROR: invalid timezone `" ++ zone ++ txt "`}"))) sched').
  Proof.
    intros NM ID PF PZ NU NL SP. unfold log_line.
    assert (PP := parse_plain alpha alnum SY nm [f; zone] par sp ID (Forall_cons _ PF (Forall_cons _ PZ (Forall_nil _))) SP).
    replace (txt "{" ++ nm ++ txt "(" ++ f ++ txt ")(" ++ zone ++ txt ")" ++ sp ++ txt "}") with (c_lb :: nm ++ flat_map (fun a => c_lp :: a ++ [c_rp]) [f; zone] ++ sp ++ [c_rb])
      by (cbn [flat_map]; change (txt "{") with [c_lb]; change (txt "(") with [c_lp]; change (txt ")(") with [c_rp; c_lp]; change (txt ")") with [c_rp]; change (txt "}") with [c_rb]; cbn [app]; rewrite <- !app_assoc; cbn [app]; rewrite <- !app_assoc; reflexivity).
    rewrite PP. cbn [map].
    assert (CH : chunk_of (PArg nm [[PText f]; [PText zone]] par) = CErr (txt "invalid timezone `" ++ zone ++ txt "`")).
    { assert (E1 : leqb zone (txt "utc") = false) by (destruct (leqb zone (txt "utc")) eqn:E; [apply leqb_ok in E; contradiction|reflexivity]).
      assert (E2 : leqb zone (txt "local") = false) by (destruct (leqb zone (txt "local")) eqn:E; [apply leqb_ok in E; contradiction|reflexivity]).
      destruct NM as [<-|[<-|[]]]; cbn [chunk_of]; unfold is_name; cbn [nth_error length Nat.ltb Nat.leb]; rewrite E1, E2; reflexivity. }
    rewrite CH.
    assert (Q := line_ok now r [CErr (txt "invalid timezone `" ++ zone ++ txt "`")] out [] (or_introl eq_refl)). cbn [shown_all shown] in Q. rewrite app_nil_r in Q.
    destruct (encode_seq _ _ _ _) as [w|]; [|contradiction]. destruct Q as (sched' & ->). exists sched'. rewrite wire_chars. rewrite <- !app_assoc. reflexivity.
  Qed.
  (* false of the code: a line without a request shows ??? for the path, the host and the
     other fields of requests, and nothing for the address of the client *)
  Lemma bare_line nm l out sched : is_ident alpha alnum nm -> Forall plain l ->
    log_line now r alpha alnum (c_lb :: nm ++ flat_map (fun a => c_lp :: a ++ [c_rp]) l ++ [c_rb]) (Base out sched) = encode now r (chunk_of (PArg nm (map (fun a => [PText a]) l) (Params 32 false None None))) (Base out sched).
  Proof.
    intros ID F. unfold log_line. assert (PP := parse_plain alpha alnum SY nm l _ [] ID F sp_none). cbn [app] in PP. rewrite PP. cbn [map encode_seq]. destruct (encode now r _ (Base out sched)); reflexivity.
  Qed.
  Theorem C78_client_refuted out : rc_req r = None ->
    (is_ident alpha alnum (txt "client_ip") -> log_line now r alpha alnum (txt "{client_ip}") (Base out []) = Some (Base out [])) /\
    forall nm, In nm (map txt ["url"; "path"; "query"; "host"; "referer"; "user_agent"; "cookie"])%string -> value r nm = Some (txt "???").
  Proof.
    intros E. split.
    - intros ID. etransitivity; [exact (bare_line (txt "client_ip") [] out [] ID (Forall_nil _))|]. change (encode now r (CField FClientIp (Params 32 false None None)) (Base out []) = Some (Base out [])). cbn [encode]. unfold field_out. rewrite E. reflexivity.
    - intros nm H. unfold value, values, of_request. rewrite E. cbn [map In] in H. repeat (destruct H as [<-|H]; [reflexivity|]). contradiction.
  Qed.
  (* an unknown formatter is reported in the line *)
  Theorem C78_unknown s nm par out sched : prints alpha alnum false [TA nm [] par] s -> nm <> [] -> lookup leqb nm names = None ->
    is_name nm "d" "date" = false -> is_name nm "h" "highlight" = false -> is_name nm "X" "mdc" = false ->
    exists sched', log_line now r alpha alnum s (Base out sched) = Some (Base (out ++ ib (utf8 (txt "{ERROR: unknown formatter `" ++ nm ++ txt "`}"))) sched').
  Proof.
    intros P NE L D H X. assert (T := parse_ok alpha alnum SY s _ P). unfold log_line.
    assert (PC : exists l1 l2, parse alpha alnum s = l1 ++ [PArg nm [] par] ++ l2 /\ toks_all l1 = [] /\ toks_all l2 = []).
    { revert T. generalize (parse alpha alnum s). induction l as [|p l IH]; [discriminate|]. cbn [toks_all flat_map]. destruct p as [u|nm' ar par'|e]; cbn [toks].
      - destruct u as [|c u]; [|discriminate]. cbn [map app]. intro T. destruct (IH T) as (l1 & l2 & -> & A & B). exists (PText [] :: l1), l2. auto.
      - intro T. injection T as -> M -> B. exists [], l. split; [|auto]. destruct ar; [reflexivity|discriminate].
      - discriminate. }
    destruct PC as (l1 & l2 & EQ & A & B). rewrite EQ.
    assert (S : shown_all now r adjusted (map chunk_of (l1 ++ [PArg nm [] par] ++ l2)) = Some (chars_of (txt "{ERROR: unknown formatter `" ++ nm ++ txt "`}"))).
    { assert (APP : forall a b, shown_all now r adjusted (a ++ b) = match shown_all now r adjusted a, shown_all now r adjusted b with Some x, Some y => Some (x ++ y) | _, _ => None end).
      { induction a as [|c a IHa]; intro b; cbn [app shown_all]; [destruct (shown_all now r adjusted b); reflexivity|]. rewrite IHa. destruct (shown now r adjusted c); [|reflexivity]. destruct (shown_all now r adjusted a); [|reflexivity]. destruct (shown_all now r adjusted b); [|reflexivity]. now rewrite app_assoc. }
      rewrite !map_app, !APP. rewrite (pieces_shown now r adjusted l1 []) by (rewrite A; reflexivity). rewrite (pieces_shown now r adjusted l2 []) by (rewrite B; reflexivity).
      cbn [map shown_all chunk_of]. rewrite D, H, X, L. destruct (leqb nm []) eqn:Z; [apply leqb_ok in Z; contradiction|]. cbn [shown app]. rewrite !app_nil_r. rewrite <- !app_assoc. reflexivity. }
    assert (K : forallb (calm r) (map chunk_of (l1 ++ [PArg nm [] par] ++ l2)) = true).
    { rewrite !map_app, !forallb_app. rewrite (calm_text r l1 [] A), (calm_text r l2 [] B). cbn [map forallb chunk_of]. rewrite D, H, X, L. destruct (leqb nm []); reflexivity. }
    assert (Q := line_ok now r _ out sched (or_intror K)). rewrite S in Q. destruct (encode_seq _ _ _ _) as [w|]; [|contradiction]. destruct Q as (sched' & ->). exists sched'. now rewrite wire_chars.
  Qed.
  (* false of the code: a value from the MDC, or its default, is never shown *)
  Theorem C78_mdc_refuted nm t k out sched : In nm [txt "X"; txt "mdc"] -> is_ident alpha alnum nm -> plain k -> plain t ->
    log_line now r alpha alnum (txt "{" ++ nm ++ txt "(" ++ k ++ txt ")(" ++ t ++ txt ")}") (Base out sched) = Some (Base out sched).
  Proof.
    intros NM ID PK PT. replace (txt "{" ++ nm ++ txt "(" ++ k ++ txt ")(" ++ t ++ txt ")}") with (c_lb :: nm ++ flat_map (fun a => c_lp :: a ++ [c_rp]) [k; t] ++ [c_rb])
      by (cbn [flat_map]; change (txt "{") with [c_lb]; change (txt "(") with [c_lp]; change (txt ")(") with [c_rp; c_lp]; change (txt ")}") with [c_rp; c_rb]; cbn [app]; rewrite <- !app_assoc; cbn [app]; rewrite <- !app_assoc; reflexivity).
    rewrite (bare_line nm [k; t] out sched ID (Forall_cons _ PK (Forall_cons _ PT (Forall_nil _)))). destruct NM as [<-|[<-|[]]]; reflexivity.
  Qed.
  (* a mistake in the arguments of mdc is reported in the line *)
  Theorem C78_mdc_mistake s nm ar par e out sched : In nm [txt "X"; txt "mdc"] -> parse alpha alnum s = [PArg nm ar par] -> mdc_mistake ar e ->
    exists sched', log_line now r alpha alnum s (Base out sched) = Some (Base (out ++ ib (utf8 (txt "{ERROR: " ++ e ++ txt "}"))) sched').
  Proof.
    intros NM P M. assert (CK : chunk_of (PArg nm ar par) = CErr e).
    { assert (A : is_name nm "d" "date" = false /\ is_name nm "h" "highlight" = false /\ is_name nm "X" "mdc" = true) by (destruct NM as [<-|[<-|[]]]; repeat split).
      destruct A as (A & B & D). cbn [chunk_of]. rewrite A, B, D.
      destruct M as [|a b c l|e more rest L|rest L|nm' ar' par' more rest L|t k e more|t k|t k nm' ar' par' more]; try reflexivity;
        (destruct rest as [|x [|y rest]]; [reflexivity|reflexivity|cbn in L; lia]). }
    unfold log_line. rewrite P. cbn [map]. rewrite CK.
    assert (Q := line_ok now r [CErr e] out sched (or_intror eq_refl)). cbn [shown_all shown app] in Q. destruct (encode_seq _ _ _ _) as [w|]; [|contradiction].
    destruct Q as (sched' & ->). exists sched'. now rewrite app_nil_r, wire_chars.
  Qed.
  (* false of the code: these fields are accepted and never shown *)
  Theorem C78_silent_refuted nm out sched : In nm (map txt ["client_user"; "ssl_protocol"; "ssl_cipher"; "up_status"; "body_bytes_sent"; "up_addr"; "request_time"; "up_response_time"])%string ->
    is_ident alpha alnum nm -> log_line now r alpha alnum (txt "{" ++ nm ++ txt "}") (Base out sched) = Some (Base out sched).
  Proof.
    intros H ID. assert (Q := bare_line nm [] out sched ID (Forall_nil _)). cbn [flat_map app map] in Q. change (txt "{" ++ nm ++ txt "}") with (c_lb :: nm ++ [c_rb]). rewrite Q. clear Q ID.
    cbn [map In] in H. repeat (destruct H as [<-|H]; [reflexivity|]). contradiction.
  Qed.
  (* false of the code: the styles are not the documented ones *)
  Theorem C78_style_refuted : level_style (rc_level r) = documented_style (rc_level r) <-> rc_level r = Error \/ rc_level r = Debug.
  Proof. destruct (rc_level r); cbn; split; intro H; try discriminate; try tauto; (destruct H; discriminate). Qed.

  Lemma crash_shown s : format_req now r alpha alnum s = Panic <-> shown_all now r adjusted (map chunk_of (parse alpha alnum s)) = None.
  Proof.
    unfold format_req, log_line. assert (Q := line_ok now r (map chunk_of (parse alpha alnum s)) [] [] (or_introl eq_refl)). destruct (encode_seq _ _ _ _) as [w|]; destruct (shown_all _ _ _ _) as [L|]; try contradiction.
    - destruct Q as (sched' & ->). split; discriminate.
    - tauto.
  Qed.
  Lemma all_none l : shown_all now r adjusted (map chunk_of l) = None <-> exists p, In p l /\ shown now r adjusted (chunk_of p) = None.
  Proof.
    induction l as [|p l IH]; cbn [map shown_all].
    - split; [discriminate|]. intros (p & [] & _).
    - split.
      + destruct (shown now r adjusted (chunk_of p)) eqn:S1; [|intros _; exists p; split; [left; reflexivity|exact S1]]. destruct (shown_all now r adjusted (map chunk_of l)) eqn:S2; [discriminate|].
        intros _. destruct (proj1 IH eq_refl) as (p' & I & E). exists p'. split; [right; exact I|exact E].
      + intros (p' & [<-|I] & E); [rewrite E; reflexivity|]. rewrite (proj2 IH) by eauto. destruct (shown now r adjusted (chunk_of p)); reflexivity.
  Qed.
  Lemma none_group l par : shown now r adjusted (CAlign l par) = None <-> shown_all now r adjusted l = None.
  Proof. change (match shown_all now r adjusted l with Some a => Some (adjusted par a) | None => None end = None <-> shown_all now r adjusted l = None). destruct (shown_all now r adjusted l); split; congruence. Qed.
  Lemma none_high l par : shown now r adjusted (CHigh l par) = None <-> shown_all now r adjusted l = None.
  Proof.
    change (match shown_all now r adjusted l with Some a => Some (adjusted par (tag (shown_style (rc_level r)) ++ a ++ tag (match shown_style (rc_level r) with Some _ => Some plain_style | None => None end))) | None => None end = None <-> shown_all now r adjusted l = None).
    destruct (shown_all now r adjusted l); split; congruence.
  Qed.
  Lemma bad_shown p : bad_date now p -> shown now r adjusted (chunk_of p) = None.
  Proof.
    induction 1 as [nm ar par f u NM D NW|nm a par p NM I B IH].
    - assert (CH : chunk_of (PArg nm ar par) = CTime f u par) by (destruct NM as [<-|[<-|[]]]; destruct D; reflexivity). rewrite CH. cbn [shown]. rewrite NW. reflexivity.
    - assert (N0 : shown_all now r adjusted (map chunk_of a) = None) by (apply all_none; eauto).
      destruct NM as [<-|[<-|[<-|[]]]]; [change (shown now r adjusted (CAlign (map chunk_of a) par) = None); apply none_group; exact N0|..]; change (shown now r adjusted (CHigh (map chunk_of a) par) = None); apply none_high; exact N0.
  Qed.
  Lemma shown_bad p : shown now r adjusted (chunk_of p) = None -> bad_date now p.
  Proof.
    induction p as [t|e|nm ar par IH] using piece_ind2; try discriminate.
    cbn [chunk_of]. destruct (is_name nm "d" "date") eqn:N1.
    { assert (NM : In nm [txt "d"; txt "date"]) by (unfold is_name in N1; apply orb_true_iff in N1; destruct N1 as [E|E]; apply leqb_ok in E; subst nm; cbn; auto).
      destruct (2 <? length ar)%nat eqn:L; [discriminate|]. apply Nat.ltb_ge in L.
      destruct ar as [|a [|z [|]]]; cbn [nth_error length] in *; try lia.
      - cbn [shown]. destruct (now (txt "%+") false) eqn:NW; [discriminate|]. intros _. exact (bd_date now nm _ par _ _ NM dt_none NW).
      - cbn [shown]. destruct (now (flat_map date_part a) false) eqn:NW; [discriminate|]. intros _. exact (bd_date now nm _ par _ _ NM (dt_format a) NW).
      - destruct z as [|[z|nm' ar' par'|e] more]; try discriminate. destruct (leqb z (txt "utc")) eqn:Z1.
        + apply leqb_ok in Z1. subst z. cbn [shown]. destruct (now (flat_map date_part a) true) eqn:NW; [discriminate|]. intros _. exact (bd_date now nm _ par _ _ NM (dt_utc a more) NW).
        + destruct (leqb z (txt "local")) eqn:Z2; [|discriminate]. apply leqb_ok in Z2. subst z. cbn [shown]. destruct (now (flat_map date_part a) false) eqn:NW; [discriminate|]. intros _. exact (bd_date now nm _ par _ _ NM (dt_local a more) NW). }
    assert (GR : forall a, ar = [a] -> In nm [[]; txt "h"; txt "highlight"] -> shown_all now r adjusted (map chunk_of a) = None -> bad_date now (PArg nm ar par)).
    { intros a -> NM S0. apply all_none in S0. destruct S0 as (p & I & S0). apply (bd_group now nm a par p NM I). inversion IH as [|? ? F _]; subst. rewrite Forall_forall in F. apply F; assumption. }
    destruct (is_name nm "h" "highlight") eqn:N2.
    { assert (NM : In nm [[]; txt "h"; txt "highlight"]) by (unfold is_name in N2; apply orb_true_iff in N2; destruct N2 as [E|E]; apply leqb_ok in E; subst nm; cbn; auto).
      destruct ar as [|a [|]]; try discriminate. intros S0. apply none_high in S0. eapply GR; eauto. }
    destruct (is_name nm "X" "mdc").
    { destruct (2 <? length ar)%nat; [discriminate|]. destruct (mdc_part "invalid MDC key" _ _); [discriminate|]. destruct (mdc_part "invalid MDC default" _ _); discriminate. }
    destruct (leqb nm []) eqn:N4.
    { apply leqb_ok in N4. subst nm. destruct ar as [|a [|]]; try discriminate. intros S0. apply none_group in S0. eapply GR; eauto. left. reflexivity. }
    destruct (lookup leqb nm names); [|discriminate]. destruct ar; discriminate.
  Qed.
  (* C79: exactly when rewriting a text for a request crashes: a date in it has an invalid
     format *)
  Theorem C79_crash s : format_req now r alpha alnum s = Panic <-> exists p, In p (parse alpha alnum s) /\ bad_date now p.
  Proof.
    rewrite crash_shown, all_none. split; intros (p & I & B); exists p; (split; [exact I|]); [apply shown_bad|apply bad_shown]; exact B.
  Qed.
  Theorem C79_safe_partial s : (forall f u, now f u <> None) -> exists b, format_req now r alpha alnum s = Ok b.
  Proof.
    intro V. assert (forall c, shown now r adjusted c <> None) as SC.
    { assert (AL : forall l, Forall (fun c => shown now r adjusted c <> None) l -> shown_all now r adjusted l <> None).
      { induction 1 as [|c l HC HF IH]; cbn [shown_all]; [discriminate|]. destruct (shown now r adjusted c); [|contradiction]. destruct (shown_all now r adjusted l); [discriminate|contradiction]. }
      induction c as [t|e|f p|f u p|l p IH|l p IH] using chunk_ind2; try discriminate.
      - cbn [shown]. specialize (V f u). destruct (now f u); [discriminate|contradiction].
      - assert (Q := AL l IH). change (match shown_all now r adjusted l with Some a => Some (adjusted p a) | None => None end <> None). destruct (shown_all now r adjusted l); [discriminate|contradiction].
      - assert (Q := AL l IH). change (match shown_all now r adjusted l with Some a => Some (adjusted p (tag (shown_style (rc_level r)) ++ a ++ tag (match shown_style (rc_level r) with Some _ => Some plain_style | None => None end))) | None => None end <> None). destruct (shown_all now r adjusted l); [discriminate|contradiction]. }
    destruct (format_req now r alpha alnum s) as [b|e|] eqn:E.
    - eauto.
    - exfalso. unfold format_req in E. destruct (log_line _ _ _ _ _ _) as [[]|]; discriminate.
    - exfalso. apply crash_shown in E. revert E. generalize (map chunk_of (parse alpha alnum s)). induction l as [|c l IH]; cbn [shown_all]; [discriminate|]. specialize (SC c). destruct (shown now r adjusted c); [|contradiction]. destruct (shown_all now r adjusted l); [discriminate|auto].
  Qed.
  (* C80: without client_ip, on a record that has a request and a status, the line does not
     depend on the portions in which the writer takes it *)
  Theorem C80_portions_partial s out sched : rc_req r <> None -> rc_status r <> None -> forallb no_ip (toks_all (parse alpha alnum s)) = true ->
    match log_line now r alpha alnum s (Base out sched), log_line now r alpha alnum s (Base out []) with
    | Some (Base a _), Some (Base b _) => a = b
    | None, None => True
    | _, _ => False
    end.
  Proof.
    intros RQ RS NI. unfold log_line. assert (K := calm_pieces r RQ RS _ NI). assert (Q1 := line_ok now r (map chunk_of (parse alpha alnum s)) out sched (or_intror K)). assert (Q2 := line_ok now r (map chunk_of (parse alpha alnum s)) out [] (or_intror K)).
    destruct (shown_all now r adjusted (map chunk_of (parse alpha alnum s))) as [L|]; destruct (encode_seq now r _ (Base out sched)) as [w1|]; destruct (encode_seq now r _ (Base out [])) as [w2|]; try contradiction; [|exact I].
    destruct Q1 as (s1 & ->). destruct Q2 as (s2 & ->). reflexivity.
  Qed.
End Thms.

(* ---- concrete cases ---- *)
Definition line (r : record) (s : string) : option text := match log_line no_clock r a_alpha a_alnum (txt s) (Base [] []) with Some (Base o _) => Some (flat_map (fun i => match i with IB b => [b] | _ => [] end) o) | _ => None end.
Example ex_text : line (ex_rec [] Info) "a{{b\)c))" = Some (txt "a{b)c)") /\ prints a_alpha a_alnum false (map TC (txt "a{b)c)")) (txt "a{{b\)c))").
Proof.
  split; [reflexivity|]. apply pr_plain; [reflexivity|]. apply (pr_double _ _ _ c_lb); [reflexivity|discriminate|]. apply pr_plain; [reflexivity|]. apply (pr_escape _ _ _ c_rp); [reflexivity|]. apply pr_plain; [reflexivity|]. apply (pr_double _ _ _ c_rp); [reflexivity|discriminate|]. constructor.
Qed.
Example ex_fields : line (ex_rec [txt "hel"; txt "lo"] Info) "{l} {({t}:{m}):>12.12}|{m:*<8}|{path}" = Some (txt "INFO    app:hello|hello***|/a").
Proof. reflexivity. Qed.
Example ex_shows : exists ts L, prints a_alpha a_alnum false ts (txt "{m:>7.9}") /\ forallb sane_tok ts = true /\ shows_all (ex_rec [txt "hello"] Info) documented ts = Some L /\ ascii L = txt "  hello" /\ forallb no_ip ts = true.
Proof.
  exists [TA (txt "m") [] (Params 32 true (Some 7) (Some 9))]. eexists. split.
  - apply (pr_format _ _ _ (txt "m") [] _ [] (58 :: 62 :: [55] ++ 46 :: [57]) [] []); [cbn; auto|constructor| |constructor]. apply (sp_align true (Some 7) (Some 9) [55] [57]); repeat split; discriminate.
  - repeat split; reflexivity.
Qed.
(* C44 fails: {m:>10.5} shows nothing of the message, {m:<10.5} is not padded *)
Theorem C44_width_refuted : exists s ts L, prints a_alpha a_alnum false ts s /\ shows_all (ex_rec [txt "abc"] Info) documented ts = Some L /\
  log_line no_clock (ex_rec [txt "abc"] Info) a_alpha a_alnum s (Base [] []) <> Some (Base (wire L) []) /\ line (ex_rec [txt "abc"] Info) "{m:>10.5}" = Some (txt "     ") /\ s = txt "{m:>10.5}".
Proof.
  exists (txt "{m:>10.5}"), [TA (txt "m") [] (Params 32 true (Some 10) (Some 5))]. eexists. split; [|split; [reflexivity|split; [|split; reflexivity]]].
  - apply (pr_format _ _ _ (txt "m") [] _ [] (58 :: 62 :: [49; 48] ++ 46 :: [53]) [] []); [cbn; auto|constructor| |constructor]. apply (sp_align true (Some 10) (Some 5) [49; 48] [53]); repeat split; discriminate.
  - vm_compute. discriminate.
Qed.
(* C77 fails: inside an argument a doubled closing parenthesis is not one *)
Theorem C77_argument_refuted : toks_all (parse a_alpha a_alnum (txt "{(a)))}")) <> [TA [] [[TC 97; TC 41]] (Params 32 false None None)] /\ line (ex_rec [] Info) "{(a)))}" = Some (txt "{ERROR: expected '}'}").
Proof. split; [vm_compute; discriminate|reflexivity]. Qed.
(* C77 fails: after an empty format specification the closing brace is taken as fill *)
Theorem C77_fill_refuted : line (ex_rec [txt "x"] Info) "{m:}<b>" = Some (txt "{ERROR: expected '}'}") /\ line (ex_rec [txt "x"] Info) "{m:}b" = Some (txt "xb").
Proof. split; reflexivity. Qed.
(* C77 fails: an invalid formatter swallows the rest of the pattern *)
Theorem C77_rest_refuted : line (ex_rec [txt "x"] Info) "{l!} {m}" = Some (txt "{ERROR: expected '}'}").
Proof. reflexivity. Qed.
(* C77 fails: a width of 2^64 is taken as 0 *)
Theorem C77_number_refuted : line (ex_rec [txt "abc"] Info) "{m:.18446744073709551616}" = Some [].
Proof. reflexivity. Qed.
(* C79 fails *)
Theorem C79_crash_refuted : format_req no_clock (ex_rec [] Info) a_alpha a_alnum (txt "{d(%Q)}") = Panic.
Proof. reflexivity. Qed.
(* C80 fails: the address of the client is cut when the writer takes only a part *)
Theorem C80_cut_refuted : log_line no_clock (ex_rec [] Info) a_alpha a_alnum (txt "{client_ip} {path}") (Base [] [4%nat]) = Some (Base (ib (txt "10.0 /a")) []) /\
  log_line no_clock (ex_rec [] Info) a_alpha a_alnum (txt "{client_ip} {path}") (Base [] []) = Some (Base (ib (txt "10.0.0.1:99 /a")) []).
Proof. split; reflexivity. Qed.
Example ex_portions : let r := ex_rec [txt "hello"] Info in rc_req r <> None /\ rc_status r <> None /\ forallb no_ip (toks_all (parse a_alpha a_alnum (txt "{m} {path:>4}"))) = true /\
  log_line no_clock r a_alpha a_alnum (txt "{m} {path:>4}") (Base [] [1; 2; 1; 1]%nat) = Some (Base (ib (txt "hello   /a")) []).
Proof. repeat split; discriminate. Qed.
Example ex_unknown : line (ex_rec [] Info) "{nope:5}" = Some (txt "{ERROR: unknown formatter `nope`}") /\ lookup leqb (txt "nope") names = None.
Proof. split; reflexivity. Qed.
Example ex_silent : is_ident a_alpha a_alnum (txt "up_addr") /\ line (ex_rec [] Info) "{up_addr}" = Some [] /\
  is_ident a_alpha a_alnum (txt "X") /\ plain (txt "user") /\ plain (txt "none") /\ line (ex_rec [] Info) "{X(user)(none)}" = Some [].
Proof. repeat split; discriminate. Qed.
Example ex_bad_date : let p := PArg (txt "h") [[PText (txt "at "); PArg (txt "d") [[PText (txt "%Q")]; [PText (txt "utc")]] (Params 32 false None None)]] (Params 32 false None None) in
  parse a_alpha a_alnum (txt "{h(at {d(%Q)(utc)})}") = [p] /\ bad_date no_clock p /\ format_req no_clock (ex_rec [] Info) a_alpha a_alnum (txt "{h(at {d(%Q)(utc)})}") = Panic.
Proof.
  cbv zeta. split; [reflexivity|]. split; [|reflexivity]. eapply bd_group; [right; left; reflexivity|right; left; reflexivity|]. eapply bd_date; [left; reflexivity|apply dt_utc|reflexivity].
Qed.
Example ex_date : let clock := fun f (u : bool) => Some [f; if u then txt " UTC" else txt " here"] in
  log_line clock (ex_rec [] Info) a_alpha a_alnum (txt "{d(%H)(utc):>7}") (Base [] []) = Some (Base (ib (txt " %H UTC")) []) /\
  is_ident a_alpha a_alnum (txt "d") /\ plain (txt "%H") /\ spec_prints (Params 32 true (Some 7) None) (txt ":>7").
Proof.
  split; [reflexivity|]. split; [repeat split|]. split; [split; [discriminate|reflexivity]|].
  apply (sp_align true (Some 7) None (txt "7") []); [repeat split; discriminate|reflexivity].
Qed.
Example ex_zone : plain (txt "%H") /\ plain (txt "CET") /\ is_ident a_alpha a_alnum (txt "date") /\
  line (ex_rec [] Info) "{date(%H)(CET)}" = Some (txt "{ERROR: invalid timezone `CET`}") /\
  log_line (fun f (u : bool) => Some [f]) (ex_rec [] Info) a_alpha a_alnum (txt "{d}") (Base [] []) = Some (Base (ib (txt "%+")) []).
Proof. repeat split; discriminate. Qed.
Example C78_mdc_case : parse a_alpha a_alnum (txt "{X({m})(a)}") = [PArg (txt "X") [[PArg (txt "m") [] (Params 32 false None None)]; [PText (txt "a")]] (Params 32 false None None)] /\
  line (ex_rec [txt "x"] Info) "{X({m})(a)}" = Some (txt "{ERROR: invalid MDC key}") /\ line (ex_rec [txt "x"] Info) "{X({m!})}" = Some (txt "{ERROR: expected '}'}").
Proof. vm_compute. repeat split. Qed.
Example ex_high : log_line no_clock (ex_rec [txt "x"] Error) a_alpha a_alnum (txt "{h({m})}") (Base [] []) = Some (Base [IS (Style (Some 1) true); IB 120; IS plain_style] []).
Proof. reflexivity. Qed.

Print Assumptions C43_text.
Print Assumptions C43_every_text.
Print Assumptions C44_line.
Print Assumptions C44_width_partial.
Print Assumptions C44_bounds.
Print Assumptions C44_lost_refuted.
Print Assumptions C44_width_refuted.
Print Assumptions C77_grammar_partial.
Print Assumptions C77_terminates.
Print Assumptions C77_argument_refuted.
Print Assumptions C77_fill_refuted.
Print Assumptions C77_rest_refuted.
Print Assumptions C77_number_refuted.
Print Assumptions C78_field_partial.
Print Assumptions C78_date.
Print Assumptions C78_date_default.
Print Assumptions C78_date_zone.
Print Assumptions C78_client_refuted.
Print Assumptions C78_unknown.
Print Assumptions C78_mdc_mistake.
Print Assumptions C78_mdc_refuted.
Print Assumptions C78_silent_refuted.
Print Assumptions C78_style_refuted.
Print Assumptions C79_crash.
Print Assumptions C79_safe_partial.
Print Assumptions C79_crash_refuted.
Print Assumptions C80_portions_partial.
Print Assumptions C80_cut_refuted.
