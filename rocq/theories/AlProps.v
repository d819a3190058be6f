(* C190: what the lines of an access log tell. *)
From Coq Require Import String.
From Verif Require Import Base Text TextOps NwModel LogModel LogSpec LogProofs LogEncode LogParse LogShow LogProps AlModel AlSpec AlProofs.
Open Scope N_scope.

Definition clock_format : text := txt "%Y-%m-%d %H:%M:%S".

Section C190.
  Context (alpha alnum : N -> bool) (SY : syntax_ok alpha alnum) (LA : latin alpha alnum) (now : text -> bool -> option (list text)).
  Context (d : list text) (D : now clock_format false = Some d) (Dp : forallb scalar (List.concat d) = true).
  Notation message := (access_message now alpha alnum main_format).
  Notation line := (file_line now alpha alnum main_format).

  Lemma bytes_of b : flat_map (fun i => match i with IB b => [b] | IS _ => [] end) (ib b) = b.
  Proof. induction b as [|x b IH]; [reflexivity|]. cbn [ib map flat_map app]. f_equal. exact IH. Qed.
  Lemma promised_scalar t l s u q : forallb scalar t = true -> forallb scalar l = true -> forallb scalar s = true -> forallb scalar u = true -> proper_req q ->
    forallb scalar (promised t l s u q) = true.
  Proof.
    intros H1 H2 H3 H4 (A1 & A2 & A3 & A4 & A5 & A6 & A7 & A8). unfold promised. rewrite !forallb_app, H1, H2, H3, H4, A1, A2, A3, A4, A5, A6, A7, A8. reflexivity.
  Qed.

  Lemma Ok_inj (x y : bytes) : @Ok unit bytes x = Ok y -> x = y.
  Proof. congruence. Qed.
  Lemma blank x : txt " " ++ x = 32 :: x.
  Proof. reflexivity. Qed.

  (* C190, full statement: the line of a request with the format main is the one promised:
     time, client, level, what was asked for, the status it was answered with, referer,
     user agent and cookie.  Proved: everything but the level, the status of the answer and
     that of the backend is there ... *)
  Theorem C190_line_partial : forall p q a, proper_req q -> message p q a = Ok (utf8 (promised (List.concat d) (txt "INFO") (txt "???") [] q)).
  Proof.
    intros p q a P. unfold access_message, format_req, log_line.
    pose proof (line_ok now (access_record p q) (map chunk_of (parse alpha alnum main_format)) [] [] (or_introl eq_refl)) as Q.
    rewrite (main_line alpha alnum SY LA now (access_record p q) d D) in Q. destruct (encode_seq _ _ _ _) as [w|]; [|contradiction]. destruct Q as (sched' & ->).
    cbn [app]. rewrite wire_chars, bytes_of. f_equal.
    assert (E : forall x, x ++ [] = x :> text) by (intros; apply app_nil_r).
    replace (utf8 _) with (utf8 (promised (List.concat d) (txt "INFO") (txt "???") [] q)).
    - apply lossy_string. eexists. split; [|reflexivity]. apply promised_scalar; auto.
    - f_equal. unfold promised. cbn [field_out access_record rc_req rc_status rc_level of_req wr_text List.concat level_name]. rewrite !E.
      unfold client, told, or_q, or_e. reflexivity.
  Qed.
  (* ... and the file gets the time once more, and the end of the line *)
  Theorem C190_file : forall p q a, proper_req q ->
    line p q a = Ok (utf8 (List.concat d ++ txt " " ++ promised (List.concat d) (txt "INFO") (txt "???") [] q ++ [10])).
  Proof.
    intros p q a P. unfold file_line. unfold clock_format in D. rewrite D, (C190_line_partial p q a P). cbn [rbind]. f_equal.
    unfold utf8. rewrite !flat_map_app. reflexivity.
  Qed.
  (* ... but the status is never the one of the answer, whatever the pattern: two answers
     cannot be told apart *)
  Theorem C190_status_refuted : forall p q a a', proper_req q ->
    (forall pattern, access_message now alpha alnum pattern p q a = access_message now alpha alnum pattern p q a') /\
    forall l st u, forallb scalar l = true -> forallb scalar st = true -> forallb scalar u = true -> no_char 32 l = true ->
      asked_plainly q -> message p q a = Ok (utf8 (promised (List.concat d) l st u q)) -> l = txt "INFO" /\ st ++ txt " " ++ u = txt "??? ".
  Proof.
    intros p q a a' P. split; [reflexivity|]. intros l st u Sl Ss Su Bl (A1 & A2 & A3 & A4 & A5). rewrite (C190_line_partial p q a P). intros E. apply Ok_inj in E.
    apply utf8_inj in E; [|apply promised_scalar; auto|apply promised_scalar; auto]. unfold promised in E. apply app_inv_head in E. apply app_inv_head in E. apply app_inv_head in E. apply app_inv_head in E.
    rewrite !blank in E. apply before_blank in E as [<- E]; [|reflexivity|exact Bl]. split; [reflexivity|].
    do 8 apply app_inv_head in E. apply (app_inv_tail (txt " referer: " ++ told (rq_referer q) ++ txt " user_agent: " ++ told (rq_agent q) ++ txt " cookie: " ++ told (rq_cookie q))).
    rewrite <- !app_assoc. symmetry. exact E.
  Qed.
  (* one line for each request, unless a value has an end of line in it *)
  Lemma byte_low c b t : b < 128 -> no_char b t = true -> c = b -> ~ In c (utf8 t).
  Proof.
    intros B H -> I. unfold utf8 in I. apply in_flat_map in I as (x & X & Y). unfold no_char in H. rewrite forallb_forall in H. specialize (H x X). apply negb_true_iff, N.eqb_neq in H.
    unfold utf8_char in Y. destruct (x <? 0x80) eqn:E1; [destruct Y as [Y|[]]; lia|]. destruct (x <? 0x800); [|destruct (x <? 0x10000)]; cbn [In] in Y;
      repeat (destruct Y as [Y|Y]; [lia|]); destruct Y.
  Qed.
  Theorem C190_one_line : forall p q a b, proper_req q -> absent 10 q -> no_char 10 (List.concat d) = true -> line p q a = Ok b ->
    exists b', b = b' ++ [10] /\ ~ In 10 b'.
  Proof.
    intros p q a b P (A1 & A2 & A3 & A4 & A5 & A6 & A7 & A8) Dn E. rewrite (C190_file p q a P) in E. apply Ok_inj in E. rewrite <- E. clear E.
    exists (utf8 (List.concat d ++ txt " " ++ promised (List.concat d) (txt "INFO") (txt "???") [] q)). split.
    - rewrite !utf8_app, <- !app_assoc. reflexivity.
    - apply (byte_low 10 10); [lia| |reflexivity]. unfold promised. rewrite !no_char_app, Dn, A1, A2, A3, A4, A5, A6, A7, A8. reflexivity.
  Qed.
  (* who asked for what can be read back from a line, whatever the client said of itself:
     two lines of the same time that are the same are of the same client and target ... *)
  Theorem C190_who : forall p q a p' q' a', proper_req q -> proper_req q' -> asked_plainly q -> asked_plainly q' -> message p q a = message p' q' a' ->
    client q = client q' /\ List.concat (rq_url q) = List.concat (rq_url q') /\ rq_path q = rq_path q' /\ told (rq_query q) = told (rq_query q') /\ told (rq_host q) = told (rq_host q') /\
    told (rq_referer q) ++ txt " user_agent: " ++ told (rq_agent q) ++ txt " cookie: " ++ told (rq_cookie q) =
    told (rq_referer q') ++ txt " user_agent: " ++ told (rq_agent q') ++ txt " cookie: " ++ told (rq_cookie q').
  Proof.
    intros p q a p' q' a' P P' (A1 & A2 & A3 & A4 & A5) (B1 & B2 & B3 & B4 & B5). rewrite (C190_line_partial p q a P), (C190_line_partial p' q' a' P'). intros E. apply Ok_inj in E.
    apply utf8_inj in E; [|apply promised_scalar; auto|apply promised_scalar; auto]. unfold promised in E.
    do 2 apply app_inv_head in E.
    assert (W1 : forall x, txt " path:" ++ x = 32 :: txt "path:" ++ x) by reflexivity. assert (W2 : forall x, txt " query:" ++ x = 32 :: txt "query:" ++ x) by reflexivity.
    assert (W3 : forall x, txt " host:" ++ x = 32 :: txt "host:" ++ x) by reflexivity. assert (W4 : forall x, txt " status: " ++ x = 32 :: txt "status: " ++ x) by reflexivity.
    rewrite !blank, !W1, !W2, !W3, !W4 in E.
    apply before_blank in E as [E1 E]; [|exact A1|exact B1]. split; [exact E1|].
    apply before_blank in E as [_ E]; [|reflexivity|reflexivity]. apply before_blank in E as [E2 E]; [|exact A2|exact B2]. split; [exact E2|].
    apply app_inv_head in E. apply before_blank in E as [E3 E]; [|exact A3|exact B3]. split; [exact E3|].
    apply app_inv_head in E. apply before_blank in E as [E4 E]; [|exact A4|exact B4]. split; [exact E4|].
    apply app_inv_head in E. apply before_blank in E as [E5 E]; [|exact A5|exact B5]. split; [exact E5|].
    apply app_inv_head in E. apply before_blank in E as [_ E]; [|reflexivity|reflexivity]. do 2 apply app_inv_head in E. exact E.
  Qed.
  (* ... and of the same referer, user agent and cookie if these have no blanks ... *)
  Theorem C190_all_partial : forall p q a p' q' a', proper_req q -> proper_req q' -> asked_plainly q -> asked_plainly q' ->
    no_char 32 (told (rq_referer q)) = true -> no_char 32 (told (rq_referer q')) = true -> no_char 32 (told (rq_agent q)) = true -> no_char 32 (told (rq_agent q')) = true ->
    message p q a = message p' q' a' ->
    told (rq_referer q) = told (rq_referer q') /\ told (rq_agent q) = told (rq_agent q') /\ told (rq_cookie q) = told (rq_cookie q').
  Proof.
    intros p q a p' q' a' P P' A B R R' G G' E. destruct (C190_who p q a p' q' a' P P' A B E) as (_ & _ & _ & _ & _ & X).
    assert (W1 : forall x, txt " user_agent: " ++ x = 32 :: txt "user_agent: " ++ x) by reflexivity. assert (W2 : forall x, txt " cookie: " ++ x = 32 :: txt "cookie: " ++ x) by reflexivity.
    rewrite !W1, !W2 in X.
    apply before_blank in X as [X1 X]; [|exact R|exact R']. split; [exact X1|]. apply app_inv_head in X. apply before_blank in X as [X2 X]; [|exact G|exact G']. split; [exact X2|].
    apply app_inv_head in X. exact X.
  Qed.
  (* ... but a client can make its user agent look like a cookie: the values are not marked
     off from each other *)
  Theorem C190_forged_refuted : forall p a p' a' ip url path query host referer x y z,
    let q agent cookie := Req ip url path query host referer (Some agent) (Some cookie) in
    proper_req (q (x ++ txt " cookie: " ++ y) z) -> proper_req (q x (y ++ txt " cookie: " ++ z)) ->
    message p (q (x ++ txt " cookie: " ++ y) z) a = message p' (q x (y ++ txt " cookie: " ++ z)) a'.
  Proof.
    intros p a p' a' ip url path query host referer x y z q P P'. rewrite (C190_line_partial p _ a P), (C190_line_partial p' _ a' P'). unfold q, promised. cbn [told rq_agent rq_cookie client rq_client_ip rq_url rq_path rq_query rq_host rq_referer].
    rewrite <- !app_assoc. reflexivity.
  Qed.
End C190.
Print Assumptions C190_line_partial.
Print Assumptions C190_file.
Print Assumptions C190_status_refuted.
Print Assumptions C190_one_line.
Print Assumptions C190_who.
Print Assumptions C190_all_partial.
Print Assumptions C190_forged_refuted.

(* ASCII letters, a fixed time, a request; the line with it *)
Definition al_now : text -> bool -> option (list text) := fun f _ => if leqb f clock_format then Some [txt "2024-01-02"; txt " 03:04:05"] else None.
Definition al_req : req := Req (Some (txt "10.0.0.1:99")) [txt "http://h"; txt "/a?b"] (txt "/a") (Some (txt "b")) (Some (txt "h")) None (Some (txt "x y")) (Some (txt "c=1")).
Example C190_demo : syntax_ok a_alpha a_alnum /\ latin a_alpha a_alnum /\ al_now clock_format false <> None /\ proper_req al_req /\ asked_plainly al_req /\ absent 10 al_req /\
  access_message al_now a_alpha a_alnum main_format (Proc None [] 1) al_req [txt "200 OK"] =
    Ok (txt "2024-01-02 03:04:05 10.0.0.1:99 INFO http://h/a?b path:/a query:b host:h status: ???  referer:  user_agent: x y cookie: c=1").
Proof.
  split; [exact ex_syntax|]. split.
  - intros c H. unfold a_alnum, a_alpha. replace (97 <=? c) with true by (symmetry; apply N.leb_le; lia). replace (c <=? 122) with true by (symmetry; apply N.leb_le; lia).
    destruct (_ && _); split; reflexivity.
  - split; [discriminate|]. split; [repeat split|]. split; [repeat split|]. split; [repeat split|]. reflexivity.
Qed.
