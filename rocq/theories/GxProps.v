(* C45, C54, C56, C57: exactly which texts are sets of proxy kinds, limit zones, limit_req
   settings and log settings, what they mean, and which ones crash. *)
From Coq Require Import String.
From Verif Require Import Base Text TextOps ConfModel ConfSpec ConfProofs CxSpec CxProofs CxProps GxSpec GxProofs.
Open Scope N_scope.

(* C45: a text is read as a set of proxy kinds exactly when it is not empty; the set holds
   exactly the kinds named by one of its words, in small or in capital letters *)
Theorem C45_exact : forall s,
  (forall b, parse_flag s = Ok b <-> kinds_text s b) /\ (parse_flag s = Err tt <-> s = []) /\ parse_flag s <> Panic.
Proof.
  intros s. split; [intros b; apply kinds_exact|]. destruct s; (split; [split|]); try reflexivity; discriminate.
Qed.
Example C45_exact_example : parse_flag (txt " https x HTTP ") = Ok 3 /\ kinds_text (txt " https x HTTP ") 3 /\ parse_flag (txt "Http") = Ok 0.
Proof. split; [reflexivity|]. split; [apply kinds_exact; reflexivity|reflexivity]. Qed.

(* C54: a text is read as a rate, a limit zone or a limit_req setting exactly when it is one,
   with what it says; a text is never two of a kind *)
Theorem C54_exact : forall dr s,
  (forall r, parse_rate s = Ok r <-> rate_text s r) /\
  (forall z, parse_zone dr s = Ok z <-> zone_text dr s z) /\
  (forall r, parse_lreq s = Ok r <-> lreq_text s r) /\
  (forall r r', rate_text s r -> rate_text s r' -> r = r') /\
  (forall z z', zone_text dr s z -> zone_text dr s z' -> z = z') /\
  (forall r r', lreq_text s r -> lreq_text s r' -> r = r').
Proof.
  intros dr s. split; [intros r; symmetry; apply rate_text_iff|]. split; [apply zone_exact|]. split; [apply lreq_exact|].
  split; [|split]; intros x y X Y.
  - apply rate_text_iff in X, Y. congruence.
  - apply zone_exact in X, Y. congruence.
  - apply lreq_exact in X, Y. congruence.
Qed.
Example C54_exact_example :
  zone_text (1, 1) (txt "{client_ip} limit=10k limit=2k") (LZone (txt "{client_ip}") 2048 1 1) /\
  lreq_text (txt "brust=+5 zone=a=b") (LReq (txt "a") 5) /\ (forall r, ~ lreq_text (txt "zone=a  brust=5") r) /\
  forall z, ~ zone_text (1, 1) (txt "k burst=3") z.
Proof.
  split; [apply zone_exact; vm_compute; reflexivity|]. split; [apply lreq_exact; vm_compute; reflexivity|].
  split; [intros r H; apply lreq_exact in H; vm_compute in H; discriminate H|]. intros z H. apply zone_exact in H. vm_compute in H. discriminate H.
Qed.

(* C56: no text of a set of kinds, a log setting or a limit_req setting crashes the reader; a
   rate does exactly when its size, or its duration behind a proper size, is too large; a zone
   exactly when it has no word at all or a setting with a number too large behind proper
   settings *)
Theorem C56_exact_partial : forall dr s,
  parse_flag s <> Panic /\ parse_log s <> Panic /\ parse_lreq s <> Panic /\
  (parse_rate s = Panic <-> big_rate s) /\
  (parse_zone dr s = Panic <->
     (forall c, In c s -> is_ws c = true) \/
     exists key vs v more n r, blank_words s (key :: vs ++ v :: more) /\ zone_settings dr vs n r /\ big_setting v).
Proof.
  intros dr s. split; [apply parse_flag_panic|]. split; [apply parse_log_panic|]. split; [apply parse_lreq_panic|].
  split; [symmetry; apply big_rate_iff|].
  assert (Bl : split_ws s = [] <-> forall c, In c s -> is_ws c = true).
  { split.
    - intros E. apply bw_iff in E. remember [] as ws eqn:Ew. revert Ew. induction E as [|c s ws Hc _ IH|]; intros Ew; [intros c []| |discriminate Ew].
      intros x [<-|Hx]; [exact Hc|exact (IH Ew x Hx)].
    - intros H. apply bw_iff. induction s as [|c s IH]; [constructor|]. constructor; [apply H; left; reflexivity|].
      apply IH. intros x Hx. apply H. right; exact Hx. }
  rewrite <- Bl. unfold parse_zone. split.
  - destruct (split_ws s) as [|key vs] eqn:E; [left; reflexivity|]. intros H. right.
    destruct (zone_args vs 0 dr) as [[n r]|e|] eqn:Ez; cbn [rbind] in H; try discriminate H.
    apply zone_crash_args in Ez as (vs1 & v & vs2 & n & r & -> & Z & B). exists key, vs1, v, vs2, n, r. split; [apply bw_iff; exact E|auto].
  - intros [E|(key & vs & v & more & n & r & W & Z & B)]; [rewrite E; reflexivity|]. apply bw_iff in W. rewrite W.
    rewrite (proj2 (zone_crash_args dr (vs ++ v :: more))); [reflexivity|]. exists vs, v, more, n, r. auto.
Qed.
Example C56_exact_example : parse_zone (1, 1) (txt "k limit=3 rate=16384p/s x") = Panic /\ big_setting (txt "rate=16384p/s") /\
  parse_zone (1, 1) (txt "k x limit=16384p") = Err tt.
Proof. split; [reflexivity|]. split; [apply (big_setting_iff _ 0 (0, 0)); reflexivity|reflexivity]. Qed.

(* C57: a text is read as a log setting exactly when it is one, and has one meaning *)
Theorem C57_exact : forall s,
  (forall l, parse_log s = Ok l <-> log_text s l) /\ (parse_log s = Err tt <-> ~ In 32 s) /\ parse_log s <> Panic /\
  (forall l l', log_text s l -> log_text s l' -> l = l').
Proof.
  intros s. split; [intros l; apply log_exact|]. split; [|split; [apply parse_log_panic|]].
  - destruct (pieces_total 32 s) as (ps & P). destruct P as (Hn & E & Hd). pose proof (conj Hn (conj E Hd)) as P. apply pieces_iff in P.
    unfold parse_log. rewrite P. destruct ps as [|a [|b more]]; [contradiction| |].
    + split; [|reflexivity]. intros _. rewrite E. apply Hd. left; reflexivity.
    + split; [discriminate|]. intros H. destruct H. rewrite E. cbn [joined]. apply in_or_app. right. left. reflexivity.
  - intros l l' X Y. apply log_exact in X, Y. congruence.
Qed.
Example C57_exact_example : log_text (txt "logs/a.log main Warn") (CLog (txt "logs/a.log") (txt "main") LWarn) /\
  log_text (txt "logs/a.log main warn x") (CLog (txt "logs/a.log") (txt "main") LTrace) /\ level_name (txt "dEBug") LDebug.
Proof.
  split; [apply log_exact; reflexivity|]. split; [apply log_exact; reflexivity|apply level_name_iff; reflexivity].
Qed.

Print Assumptions C45_exact.
Print Assumptions C54_exact.
Print Assumptions C56_exact_partial.
Print Assumptions C57_exact.
