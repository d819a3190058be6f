(* Cached texts, rewriting, rule texts: C138 to C143. *)
From Coq Require Import String.
From Verif Require Import Base Text TextOps ConfModel AddrModel RouteModel RouteSpec RouteProofs SiteModel SiteProps ConfSpec ConfProofs RwModel RwSpec RwProofs.
From Verif Require LogModel LogSpec LogProofs LogEncode LogParse LogShow LogProps.
Open Scope N_scope.

(* ---- C138: sets of methods and schemes shown and read again ------------------------------ *)
Section Sets.
  Context {M : Type} (parse : text -> option M) (disp : M -> text) (meq : M -> M -> bool).
  (* holds for the empty set and for one element ... *)
  Theorem C138_one_partial : (forall m, parse (disp m) = Some m /\ word (disp m) = true) ->
    forall l, (length l <= 1)%nat -> parse_set parse meq (show_set disp l) = Some l.
  Proof.
    intros H [|m [|m2 l]] L; cbn in L; try lia; [reflexivity|].
    unfold parse_set, show_set. cbn [flat_map]. rewrite app_nil_r. destruct (H m) as [A B]. rewrite split_ws_one by exact B.
    cbn [parse_words]. rewrite A. reflexivity.
  Qed.
  (* ... and for no larger set, in whatever order its elements are written: the names are
     written without a blank between them, so at most one is read *)
  Theorem C138_more_refuted : (forall m, word (disp m) = true) ->
    forall l l', (2 <= length l)%nat -> parse_set parse meq (show_set disp l) = Some l' -> length l' = 1%nat.
  Proof.
    intros H l l' L P. unfold parse_set in P.
    assert (W : word (show_set disp l) = true).
    { destruct l as [|m l]; [cbn in L; lia|]. clear L P. unfold show_set. cbn [flat_map]. specialize (H m) as Hm.
      destruct (disp m) as [|c r] eqn:D; [discriminate|]. cbn [app word] in *. change (forallb (fun c => negb (is_ws c)) ((c :: r) ++ flat_map disp l) = true).
      rewrite forallb_app, Hm. cbn [andb]. clear -H. induction l as [|x l IH]; [reflexivity|]. cbn [flat_map]. rewrite forallb_app, IH.
      specialize (H x). destruct (disp x); [discriminate|]. cbn [word] in H. rewrite H. reflexivity. }
    rewrite split_ws_one in P by exact W. cbn [parse_words] in P. destruct (parse (show_set disp l)) as [m|]; [|discriminate].
    injection P as <-. reflexivity.
  Qed.
  (* what is configured is read as written: every name once *)
  Theorem C138_read : (forall m, parse (disp m) = Some m /\ word (disp m) = true) -> (forall a b, meq a b = true <-> a = b) ->
    forall l, NoDup l -> parse_set parse meq (blank_joined (map disp l)) = Some l.
  Proof.
    intros H Q l Nd. unfold parse_set.
    assert (S : split_ws (blank_joined (map disp l)) = map disp l).
    { clear Nd. induction l as [|m [|m2 l] IH]; [reflexivity|cbn [map blank_joined]; apply split_ws_one; apply H|].
      change (split_ws (disp m ++ 32 :: blank_joined (map disp (m2 :: l))) = map disp (m :: m2 :: l)).
      rewrite split_ws_app; [rewrite IH; reflexivity|apply H|reflexivity]. }
    rewrite S. clear S.
    assert (G : forall l acc, NoDup (acc ++ l) -> parse_words parse meq (map disp l) acc = Some (acc ++ l)).
    { clear l Nd. induction l as [|m l IH]; intros acc Hd; cbn [map parse_words]; [rewrite app_nil_r; reflexivity|].
      destruct (H m) as [-> _]. unfold set_add. destruct (existsb (meq m) acc) eqn:E.
      - apply existsb_exists in E as (x & Hx & Ex). apply Q in Ex as <-. apply NoDup_remove_2 in Hd. elim Hd. apply in_app_iff. left. exact Hx.
      - rewrite IH; rewrite <- app_assoc; [reflexivity|exact Hd]. }
    apply (G l []). exact Nd.
  Qed.
End Sets.
(* methods as their names *)
Example C138_demo :
  let parse := fun t => Some t in let disp := fun t : text => t in
  parse_set parse leqb (txt "GET  POST GET") = Some [txt "GET"; txt "POST"] /\
  show_set disp [txt "GET"; txt "POST"] = txt "GETPOST" /\
  parse_set parse leqb (show_set disp [txt "GET"; txt "POST"]) = Some [txt "GETPOST"] /\
  parse_set parse leqb (show_set disp [txt "GET"]) = Some [txt "GET"] /\ word (txt "GET") = true.
Proof. repeat split. Qed.

(* ---- C139: try_paths -------------------------------------------------------------------- *)
Section Try.
  Context (status_ok : N -> bool) (show_status : N -> text).
  (* the paths and the status that are written are the ones in force *)
  Theorem C139_read : forall ws n s, line (ws ++ [61 :: show n]) s -> Forall is_path ws -> n <= u16_max -> status_ok n = true ->
    parse_tries status_ok s = Tries ws n.
  Proof.
    intros ws n s L P Hn Hs. destruct (split_line _ _ L) as [E _]. unfold parse_tries. rewrite E, fold_left_app, (tries_paths status_ok ws P).
    cbn [y_list y_status app fold_left]. unfold try_word. cbn [y_list y_status].
    change (starts_with [61] (61 :: show n)) with true. cbv iota.
    assert (T : trim_start_p (fun c => c =? 61) (61 :: show n) = show n).
    { unfold trim_start_p. cbn [drop_while]. change (61 =? 61) with true. cbv iota. pose proof (show_digits n) as D. pose proof (show_nonempty n) as Ne.
      destruct (show n) as [|c r]; [contradiction|]. cbn [forallb] in D. apply andb_true_iff in D as [D _]. unfold is_digit in D.
      cbn [drop_while]. replace (c =? 61) with false by lia. reflexivity. }
    rewrite T, parse_show by exact Hn. rewrite Hs. reflexivity.
  Qed.
  Theorem C139_default : forall ws s, line ws s -> Forall is_path ws -> parse_tries status_ok s = Tries ws 404.
  Proof.
    intros ws s L P. destruct (split_line _ _ L) as [E _]. unfold parse_tries. rewrite E, tries_paths by exact P. reflexivity.
  Qed.
  (* a status that is no status is not reported: 404 is used *)
  Theorem C139_bad_status_refuted : forall ws v s, line (ws ++ [61 :: v]) s -> Forall is_path ws ->
    (forall n, parse_uint u16_max (trim_start_p (fun c => c =? 61) v) = Some n -> status_ok n = false) ->
    parse_tries status_ok s = Tries ws 404.
  Proof.
    intros ws v s L P B. destruct (split_line _ _ L) as [E _]. unfold parse_tries. rewrite E, fold_left_app, (tries_paths status_ok ws P).
    cbn [y_list y_status app fold_left]. unfold try_word. cbn [y_list y_status].
    change (starts_with [61] (61 :: v)) with true. cbv iota.
    change (trim_start_p (fun c => c =? 61) (61 :: v)) with (trim_start_p (fun c => c =? 61) v).
    destruct (parse_uint u16_max (trim_start_p (fun c => c =? 61) v)) as [n|] eqn:G; [|reflexivity]. rewrite (B n eq_refl). reflexivity.
  Qed.
  (* shown and read again, the status has become a further path and 404 is in force *)
  Theorem C139_shown_refuted : forall y sw, Forall (fun w => plain w = true /\ is_path w) (y_list y) ->
    sw <> [] -> Forall (fun w => plain w = true /\ is_path w) sw -> show_status (y_status y) = joined sw ->
    parse_tries status_ok (show_tries show_status y) = Tries (y_list y ++ sw) 404 /\ parse_tries status_ok (show_tries show_status y) <> y.
  Proof.
    intros y sw Hp Hn Hs E.
    assert (G : split_by_whitespace (show_tries show_status y) = y_list y ++ sw).
    { unfold show_tries. rewrite E. destruct (y_list y) as [|w l] eqn:D.
      - cbn [joined app]. rewrite split_blank by reflexivity. apply split_line, plain_line; [exact Hn|].
        eapply Forall_impl; [|exact Hs]. intros a [A _]. exact A.
      - rewrite <- D in *. rewrite <- joined_app by (try exact Hn; rewrite D; discriminate). apply split_line, plain_line.
        + rewrite D. discriminate.
        + apply Forall_app. split; (eapply Forall_impl; [|eassumption]); intros a [A _]; exact A. }
    assert (F : parse_tries status_ok (show_tries show_status y) = Tries (y_list y ++ sw) 404).
    { unfold parse_tries. rewrite G, tries_paths; [reflexivity|]. apply Forall_app. split; (eapply Forall_impl; [|eassumption]); intros a [_ A]; exact A. }
    split; [exact F|]. rewrite F. intros C. destruct y as [l n]. cbn [y_list] in C. injection C as C _. apply Hn.
    rewrite <- (app_nil_r l) in C at 2. apply app_inv_head in C. exact C.
  Qed.
End Try.
Example C139_demo : let ok := fun n => (100 <=? n) && (n <? 1000) in
  parse_tries ok (txt "{path} '/a b/{path}' /index.html =502") = Tries [txt "{path}"; txt "/a b/{path}"; txt "/index.html"] 502 /\
  parse_tries ok (txt "/a =50x") = Tries [txt "/a"] 404 /\
  show_tries show (Tries [txt "/a"] 502) = txt "/a 502" /\
  parse_tries ok (show_tries show (Tries [txt "/a"] 502)) = Tries [txt "/a"; txt "502"] 404.
Proof. repeat split. Qed.

(* ---- C140 and C141: rewriting and caches --------------------------------------------------- *)
Section Rewrite.
  Context {E R Q : Type} (encoder : text -> E) (regex_new : text -> option R)
          (encode : E -> Q -> res unit text) (replace_all : R -> text -> text -> text).
  Notation caches := (@caches E R).
  Notation rstep := (@rstep E R Q encoder regex_new encode replace_all).
  Notation rrun := (@rrun E R Q encoder regex_new encode replace_all).
  Notation after os := (snd (rrun os caches0)) (only parsing).
  Notation path_of t q f os := (fst (format_req_may_regex encoder regex_new encode replace_all t q f (snd (rrun os caches0)))) (only parsing).

  (* what a call returns does not depend on what was asked before, by whichever thread *)
  Theorem C141_same : forall os o, fst (rstep o (after os)) = fst (rstep o caches0).
  Proof.
    intros os o. apply (rstep_sound encoder regex_new encode replace_all).
    apply (rrun_sound encoder regex_new encode replace_all os caches0). apply sound0.
  Qed.
  (* and is the text asked for, the regular expression of the pattern (none for the empty
     one), or the request in the format *)
  Theorem C141_right : forall os t q f p s,
    fst (rstep (RStatic s) (after os)) = OText (Ok s) /\
    (p <> [] -> fst (rstep (RRegex p) (after os)) = ORegex (regex_new p)) /\
    (forall r, encode (encoder f) q = Ok r -> fst (rstep (RFormat t q f) (after os)) = OText (Ok r)).
  Proof.
    intros os t q f p s. rewrite !C141_same. split; [reflexivity|]. split.
    - intros Hp. destruct (regex_ok encoder regex_new p caches0 (sound0 encoder regex_new)) as [A _]. cbn [RwModel.rstep].
      destruct (try_cache_regex regex_new p caches0) as [r c]. cbn [fst] in *. subst r. destruct p; [contradiction|reflexivity].
    - intros r Hr. destruct (format_ok encoder regex_new encode t q f caches0 (sound0 encoder regex_new)) as [A _]. cbn [RwModel.rstep].
      destruct (format_req_c encoder encode t q f caches0) as [x c]. cbn [fst] in *. subst x. rewrite Hr. reflexivity.
  Qed.
  (* nothing is remembered twice, and nothing but texts that were asked for *)
  Theorem C141_bounded : forall os, Forall (fun l => NoDup l /\ incl l (flat_map texts os)) (remembered (after os)) /\
    NoDup (map fst (k_pat (after os))).
  Proof.
    intros os. destruct (rrun_kept encoder regex_new encode replace_all (flat_map texts os) os caches0 (kept0 _) (incl_refl _)) as [A B].
    split; assumption.
  Qed.

  (* a text without blanks is the path, with its placeholders filled in *)
  Theorem C140_plain : forall os t q f b1 b2 r, plain f = true -> forallb is_ws b1 = true -> forallb is_ws b2 = true ->
    encode (encoder f) q = Ok r -> path_of t q (b1 ++ f ++ b2) os = Ok r.
  Proof.
    intros os t q f b1 b2 r Hf H1 H2 Hr.
    destruct (may_ok encoder regex_new encode replace_all t q (b1 ++ f ++ b2) (after os)) as [A _].
    { apply (rrun_sound encoder regex_new encode replace_all os caches0), sound0. }
    rewrite A. unfold may_regex. cbv zeta. rewrite (trim_line [f] f); [|apply line_one; left; split; [reflexivity|exact Hf]|exact H1|exact H2].
    replace (existsb is_ws f) with false; [rewrite Hr; reflexivity|]. destruct f as [|c f]; [discriminate|]. cbn [plain] in Hf.
    symmetry. apply not_true_iff_false. rewrite existsb_exists. intros (x & Hx & W). rewrite forallb_forall in Hf. specialize (Hf x Hx).
    apply plain_ws in Hf. congruence.
  Qed.
  (* a regular expression, a text and replacements: every replacement made in the text, with
     a blank between the results *)
  Theorem C140_regex : forall os t q re x key outs s b1 b2 k, line (re :: key :: outs) s -> re <> [] ->
    forallb is_ws b1 = true -> forallb is_ws b2 = true -> regex_new re = Some x -> encode (encoder key) q = Ok k ->
    path_of t q (b1 ++ s ++ b2) os = Ok (blank_joined (map (replace_all x k) outs)).
  Proof.
    intros os t q re x key outs s b1 b2 k L Hre H1 H2 Hx Hk.
    destruct (may_ok encoder regex_new encode replace_all t q (b1 ++ s ++ b2) (after os)) as [A _].
    { apply (rrun_sound encoder regex_new encode replace_all os caches0), sound0. }
    rewrite A. unfold may_regex. cbv zeta. rewrite (trim_line _ s b1 b2 L H1 H2), (line_more_ws _ _ _ _ L).
    destruct (split_line _ _ L) as [-> _]. destruct re as [|c re]; [contradiction|]. rewrite Hx. unfold oper. rewrite Hk. reflexivity.
  Qed.
  (* where it does not match, the path is the text itself *)
  Theorem C140_no_match : forall os t q re x key out s k, line [re; key; out] s -> re <> [] ->
    regex_new re = Some x -> encode (encoder key) q = Ok k -> replace_all x k out = k -> path_of t q s os = Ok k.
  Proof.
    intros os t q re x key out s k L Hre Hx Hk Hn.
    assert (G := C140_regex os t q re x key [out] s [] [] k L Hre eq_refl eq_refl Hx Hk). cbn [app] in G. rewrite app_nil_r in G.
    rewrite G. cbn [map blank_joined]. rewrite Hn. reflexivity.
  Qed.
  (* a path with a blank in it is not used: if its first word can be read as a regular
     expression, which most texts can, the path tried is the empty one *)
  Theorem C140_blank_refuted : forall os t q a b x s k, line [a; b] s -> a <> [] -> regex_new a = Some x -> encode (encoder b) q = Ok k ->
    path_of t q s os = Ok [].
  Proof.
    intros os t q a b x s k L Ha Hx Hk.
    assert (G := C140_regex os t q a x b [] s [] [] k L Ha eq_refl eq_refl Hx Hk). cbn [app] in G. rewrite app_nil_r in G. exact G.
  Qed.
  (* the same for a single quoted word with a blank in it *)
  Theorem C140_quoted_refuted : forall os t q w qu, (qu = 34 \/ qu = 39) -> ~ In qu w -> existsb is_ws w = true ->
    path_of t q (qu :: w ++ [qu]) os = Ok [].
  Proof.
    intros os t q w qu Hq Hw Hb.
    assert (L : line [w] (qu :: w ++ [qu])) by (apply line_one; right; exists qu; auto).
    destruct (may_ok encoder regex_new encode replace_all t q (qu :: w ++ [qu]) (after os)) as [A _].
    { apply (rrun_sound encoder regex_new encode replace_all os caches0), sound0. }
    rewrite A. unfold may_regex. cbv zeta. assert (T := trim_line _ _ [] [] L eq_refl eq_refl). cbn [app] in T. rewrite app_nil_r in T. rewrite T.
    replace (existsb is_ws (qu :: w ++ [qu])) with true; [|cbn [existsb]; rewrite existsb_app, Hb; destruct (is_ws qu); reflexivity].
    destruct (split_line _ _ L) as [-> _]. reflexivity.
  Qed.

  (* C142: a configured static text is answered with 200 and the text in the format *)
  Theorem C142_static : forall os1 os2 t q s r, encode (encoder s) q = Ok r ->
    fst (static_answer encoder encode t q (fst (static_new s (after os1))) (after os2)) = Ok (200, r).
  Proof.
    intros os1 os2 t q s r Hr. unfold static_new, static_answer.
    assert (S1 : sound encoder regex_new (after os1)) by (apply (rrun_sound encoder regex_new encode replace_all os1 caches0), sound0).
    assert (S2 : sound encoder regex_new (after os2)) by (apply (rrun_sound encoder regex_new encode replace_all os2 caches0), sound0).
    destruct (static_ok encoder regex_new s _ S1) as [-> _]. destruct (format_ok encoder regex_new encode t q s _ S2) as [A _].
    destruct (format_req_c encoder encode t q s (after os2)) as [x c]. cbn [fst] in *. subst x. rewrite Hr. reflexivity.
  Qed.
  (* without a request that can be formatted there is no answer *)
  Theorem C142_crash_refuted : forall os1 os2 t q s e, encode (encoder s) q = Err e ->
    fst (static_answer encoder encode t q (fst (static_new s (after os1))) (after os2)) = Panic.
  Proof.
    intros os1 os2 t q s e Hr. unfold static_new, static_answer.
    assert (S1 : sound encoder regex_new (after os1)) by (apply (rrun_sound encoder regex_new encode replace_all os1 caches0), sound0).
    assert (S2 : sound encoder regex_new (after os2)) by (apply (rrun_sound encoder regex_new encode replace_all os2 caches0), sound0).
    destruct (static_ok encoder regex_new s _ S1) as [-> _]. destruct (format_ok encoder regex_new encode t q s _ S2) as [A _].
    destruct (format_req_c encoder encode t q s (after os2)) as [x c]. cbn [fst] in *. subst x. rewrite Hr. reflexivity.
  Qed.
End Rewrite.

(* the encoder of the log patterns (LogModel), on a request as LogModel has it *)
Definition log_encoder (alpha alnum : N -> bool) (f : text) : list LogModel.chunk := map LogModel.chunk_of (LogModel.parse alpha alnum f).
Definition log_encode (now : text -> bool -> option (list text)) (e : list LogModel.chunk) (r : LogModel.record) : res unit text :=
  match LogModel.encode_seq now r e (LogModel.Base [] []) with
  | Some (LogModel.Base out _) => Ok (from_utf8_lossy (flat_map (fun i => match i with LogModel.IB b => [b] | LogModel.IS _ => [] end) out))
  | Some _ => Ok []
  | None => Err tt
  end.
Lemma log_encode_format now r alpha alnum f :
  match log_encode now (log_encoder alpha alnum f) r with Ok s => Ok s | _ => Panic end = LogModel.format_req now r alpha alnum f.
Proof. unfold log_encode, log_encoder, LogModel.format_req, LogModel.log_line. destruct (LogModel.encode_seq _ _ _ _) as [[]|]; reflexivity. Qed.
(* so a text, its special characters doubled or escaped, is answered as it is *)
Theorem C142_text : forall {R} (regex_new : text -> option R) replace_all alpha alnum now os1 os2 t q s body,
  LogSpec.syntax_ok alpha alnum -> LogSpec.prints alpha alnum false (map LogSpec.TC body) s -> forallb scalar body = true ->
  let run := rrun (log_encoder alpha alnum) regex_new (log_encode now) replace_all in
  fst (static_answer (log_encoder alpha alnum) (log_encode now) t q (fst (static_new s (snd (run os1 caches0)))) (snd (run os2 caches0))) = Ok (200, utf8 body).
Proof.
  intros R regex_new replace_all alpha alnum now os1 os2 t q s body SY P SC run. apply C142_static.
  destruct (LogProps.C43_text alpha alnum SY now q body s [] [] P) as (sched' & L).
  unfold log_encode, log_encoder. unfold LogModel.log_line in L. rewrite L. f_equal. cbn [app].
  replace (flat_map _ (LogModel.ib (utf8 body))) with (utf8 body).
  - apply lossy_string. exists body. split; [exact SC|reflexivity].
  - unfold LogModel.ib. generalize (utf8 body). clear. intros bs. induction bs as [|b bs IH]; [reflexivity|]. cbn [map flat_map app]. congruence.
Qed.

(* a tiny library: an expression is a prefix, which is replaced *)
Definition toy_new (p : text) : option text := if leqb p (txt "[") then None else Some p.
Definition toy_replace (re key out : text) : text := match strip_prefix re key with Some r => out ++ r | None => key end.
Definition toy_encode (e : text) (q : text) : res unit text := if leqb e (txt "{path}") then Ok q else if leqb e (txt "{d(%Q)}") then Err tt else Ok e.
Example C140_demo :
  let f := fun s => fst (format_req_may_regex (fun x => x) toy_new toy_encode toy_replace 1 (txt "/test/a") (txt s) caches0) in
  f "  {path} "%string = Ok (txt "/test/a") /\ f " /test/ {path} /formal/ "%string = Ok (txt "/formal/a") /\
  f "/other/ {path} /formal/"%string = Ok (txt "/test/a") /\ f "/test/ {path} /x/ /y/"%string = Ok (txt "/x/a /y/a") /\
  f "/my docs/x.html"%string = Ok [] /\ f "'/my docs'"%string = Ok [] /\ f "[ {path}"%string = Ok (txt "[ {path}").
Proof. repeat split. Qed.
Example C141_demo :
  let run := rrun (fun x : text => x) toy_new toy_encode toy_replace in
  let os := [RPath 1 (txt "/a") (txt "/x {path} /y"); RPath 2 (txt "/b") (txt "/x {path} /y"); RStatic (txt "hello"); RStatic (txt "hello"); RRegex (txt "/x"); RRegex (txt "[")] in
  fst (run os caches0) = [OText (Ok (txt "/a")); OText (Ok (txt "/b")); OText (Ok (txt "hello")); OText (Ok (txt "hello")); ORegex (Some (txt "/x")); ORegex None] /\
  remembered (snd (run os caches0)) = [[txt "/x"]; [txt "hello"]; [txt "{path}"]; [txt "{path}"]].
Proof. split; reflexivity. Qed.
Example C142_demo : fst (static_answer (fun x : text => x) toy_encode 1 (txt "/a") (txt "{path}") (caches0 (R := unit))) = Ok (200, txt "/a") /\
  fst (static_answer (fun x : text => x) toy_encode 1 (txt "/a") (txt "{d(%Q)}") (caches0 (R := unit))) = Panic.
Proof. split; reflexivity. Qed.

(* ---- C143: how locations are compared ---------------------------------------------------------- *)
(* equal keys get the same hash, so a kept connection is found again; the comparison is an
   equality; and two locations that share a kept connection accept the same requests *)
Theorem C143_hash : forall a b, key_eqb a b = true -> hash_input a = hash_input b.
Proof.
  intros [[a1 a2] a3] [[b1 b2] b3] H. apply key_eqb_ok in H as (H1 & H2 & H3). cbn [fst snd] in *. subst b2 b3.
  apply matcher_eqb_ok in H1 as (P1 & _ & _ & P2 & _). unfold hash_input, show_rule. cbn [fst snd]. rewrite P1, P2. reflexivity.
Qed.
Theorem C143_equality : equality key_eqb /\ (forall a b, proper (fst (fst a)) -> key_eqb a b = true -> key_eqb b a = true).
Proof.
  split; [split|].
  - intros [[a1 a2] a3]. apply key_eqb_ok. cbn [fst snd]. repeat split. apply matcher_eqb_ok. repeat split; apply same_set_refl.
  - intros [[a1 a2] a3] [[b1 b2] b3] [[c1 c2] c3] H G. apply key_eqb_ok in H as (H1 & H2 & H3). apply key_eqb_ok in G as (G1 & G2 & G3).
    apply key_eqb_ok. cbn [fst snd] in *. split; [|split; congruence]. apply matcher_eqb_ok in H1 as (P1 & P2 & P3 & P4 & P5 & P6).
    apply matcher_eqb_ok in G1 as (R1 & R2 & R3 & R4 & R5 & R6). apply matcher_eqb_ok.
    repeat split; try congruence; eapply same_set_trans; eassumption.
  - intros [[a1 a2] a3] [[b1 b2] b3] [N1 N2] H. apply key_eqb_ok in H as (H1 & H2 & H3). cbn [fst snd] in *. apply key_eqb_ok. cbn [fst snd].
    split; [|split; congruence]. apply matcher_eqb_ok in H1 as (P1 & P2 & P3 & P4 & P5 & P6). apply matcher_eqb_ok.
    assert (F : forall x y, match x with Some l => NoDup l | None => True end -> same_set x y -> same_set y x).
    { intros [x|] [y|]; cbn; try tauto. intros Nx [A B]. split; [congruence|]. apply NoDup_length_incl; [exact Nx|lia|exact B]. }
    repeat split; try congruence; apply F; assumption.
Qed.
Theorem C143_shared : forall regex parse_ip l1 l2, proper (l_rule l1) -> key_eqb (loc_key l1) (loc_key l2) = true ->
  forall path r, match_rule regex parse_ip (l_rule l1) path r = match_rule regex parse_ip (l_rule l2) path r.
Proof.
  intros regex parse_ip l1 l2 [N1 N2] H path r. apply key_eqb_ok in H as (H & _ & _). cbn [fst snd loc_key] in H.
  apply matcher_eqb_ok in H as (P1 & P2 & P3 & P4 & P5 & P6).
  assert (M : method_rule (l_rule l1) r = method_rule (l_rule l2) r).
  { unfold method_rule. destruct (m_method (l_rule l1)), (m_method (l_rule l2)); cbn in P5; try contradiction; [|reflexivity].
    destruct P5. apply same_set_mem; assumption. }
  assert (S1 : scheme_rule (l_rule l1) r = scheme_rule (l_rule l2) r).
  { unfold scheme_rule. destruct (m_scheme (l_rule l1)), (m_scheme (l_rule l2)); cbn in P6; try contradiction; [|reflexivity].
    destruct P6. apply same_set_mem; assumption. }
  unfold match_rule, path_rule, host_rule, client_rule. rewrite M, S1, P1, P2, P4. reflexivity.
Qed.
(* what is kept under, clone_only_hash, compares and hashes as the location does *)
Theorem C143_clone : forall l, loc_key (clone_only_hash l) = loc_key l.
Proof. reflexivity. Qed.
(* Missing: equality looks at the rule, up_name and method only, so two locations with the
   same rule, up_name and method but other upstreams share connections (C135). *)
Theorem C143_other_upstream_refuted : forall l1 l2, l_rule l1 = l_rule l2 -> l_up_name l1 = l_up_name l2 -> l_meth l1 = l_meth l2 ->
  key_eqb (loc_key (clone_only_hash l1)) (loc_key l2) = true.
Proof.
  intros l1 l2 A B C. unfold loc_key, clone_only_hash. cbn [l_rule l_up_name l_meth]. rewrite A, B, C. apply (proj1 (proj1 C143_equality)).
Qed.
Example C143_demo :
  let m := fun l => Matcher (Some (txt "/a*")) None None None (Some (map txt l)) None in
  let k := fun l => (m l, Some (txt "up"), None) : key in
  key_eqb (k ["GET"; "POST"]%string) (k ["POST"; "GET"]%string) = true /\ key_eqb (k ["GET"]%string) (k ["POST"]%string) = false /\
  hash_input (k ["GET"]%string) = txt "/a*up" /\ proper (m ["GET"; "POST"]%string).
Proof.
  repeat split; try exact I. repeat constructor; cbn; [intros [H|[]]; discriminate|intros []].
Qed.

Print Assumptions C138_one_partial.
Print Assumptions C138_more_refuted.
Print Assumptions C138_read.
Print Assumptions C139_read.
Print Assumptions C139_default.
Print Assumptions C139_bad_status_refuted.
Print Assumptions C139_shown_refuted.
Print Assumptions C140_plain.
Print Assumptions C140_regex.
Print Assumptions C140_no_match.
Print Assumptions C140_blank_refuted.
Print Assumptions C140_quoted_refuted.
Print Assumptions C141_same.
Print Assumptions C141_right.
Print Assumptions C141_bounded.
Print Assumptions C142_static.
Print Assumptions C142_crash_refuted.
Print Assumptions C142_text.
Print Assumptions C143_hash.
Print Assumptions C143_equality.
Print Assumptions C143_shared.
Print Assumptions C143_clone.
Print Assumptions C143_other_upstream_refuted.
