(* Log files: C119, C131 to C134. *)
From Coq Require Import String.
From Verif Require Import Base Text TextOps AddrModel ConfModel RouteModel InhModel InhProofs LsModel LsSpec LsProofs.
From Verif Require ArgModel.
Open Scope N_scope.

Section Props.
  Context {V : Type} (as_err : V -> V) (can_open valid_name : text -> bool).
  Let init := init_log can_open valid_name.
  (* the log configuration of a http section once it is loaded *)
  Definition set_up (h : ihttp (V := V)) (no_stdout : bool) (lvl : option (option level)) (cfg : logcfg) : Prop :=
    init (get_log_names (Some (fill_http as_err h))) no_stdout lvl = Ok cfg.

  Lemma http_names h : c_log_names (h_comm (fill_http as_err h)) = c_log_names (h_comm h).
  Proof. reflexivity. Qed.
  Lemma named h ns lvl cfg n v : set_up h ns lvl cfg -> first_defined (all_commons (fill_http as_err h)) n v ->
    lookup leqb n (g_loggers cfg) = Some (log_file v).
  Proof.
    intros E F. destruct (init_ok _ _ _ _ _ _ E) as (-> & _). rewrite lookup_entries. unfold get_log_names.
    apply names_first in F. rewrite F. reflexivity.
  Qed.

  (* ---- C131 ---- *)
  (* C131, full statement: the lines of a site's log go to the file its configuration
     gives for the log's name.  What an entry says (LsSpec.entry): *)
  Theorem C131_entry : forall v p x, log_file v = (p, x) <-> entry v p x.
  Proof. intros v p x. symmetry. apply entry_file. Qed.
  (* A name of the http section has that section's file, for all sites ... *)
  Theorem C131_http_partial : forall h ns lvl cfg n v p x l, set_up h ns lvl cfg ->
    lookup leqb n (c_log_names (h_comm h)) = Some v -> entry v p x ->
    (at_least x l -> sinks cfg n l = [File p]) /\ (~ at_least x l -> sinks cfg n l = []).
  Proof.
    intros h ns lvl cfg n v p x l E L En. apply entry_file in En.
    assert (F : first_defined (all_commons (fill_http as_err h)) n v).
    { eexists [], _, _. split; [reflexivity|]. split; [rewrite http_names; exact L|]. intros y []. }
    unfold sinks. rewrite (named _ _ _ _ _ _ E F), En. rewrite <- passes_ok. destruct (passes l (Some x)); split; congruence.
  Qed.
  (* ... and so has every name whose definitions agree ... *)
  Theorem C131_agree_partial : forall h ns lvl cfg n v p x l c, set_up h ns lvl cfg ->
    setting_of (fill_http as_err h) c -> lookup leqb n (c_log_names c) = Some v ->
    (forall d u, setting_of (fill_http as_err h) d -> lookup leqb n (c_log_names d) = Some u -> u = v) -> entry v p x ->
    (at_least x l -> sinks cfg n l = [File p]) /\ (~ at_least x l -> sinks cfg n l = []).
  Proof.
    intros h ns lvl cfg n v p x l c E I L A En. apply entry_file in En. apply all_commons_ok in I.
    assert (F : first_defined (all_commons (fill_http as_err h)) n v).
    { destruct (lookup leqb n (fold_left add_names (all_commons (fill_http as_err h)) [])) as [u|] eqn:Eu.
      - pose proof Eu as F. apply names_first in F. destruct F as (pre & d & post & Eq & Ld & F).
        assert (u = v) as -> by (apply (A d u); [apply all_commons_ok; rewrite Eq; apply in_app_iff; right; left; reflexivity|exact Ld]).
        exists pre, d, post. repeat split; assumption.
      - exfalso. clear - I L Eu. revert I Eu. induction (all_commons (fill_http as_err h)) as [|d cs IH]; intros I Eu; [destruct I|].
        rewrite names_cons in Eu. destruct I as [->|I]; [rewrite L in Eu; discriminate|].
        destruct (lookup leqb n (c_log_names d)); [discriminate|]. exact (IH I Eu). }
    unfold sinks. rewrite (named _ _ _ _ _ _ E F), En. rewrite <- passes_ok. destruct (passes l (Some x)); split; congruence.
  Qed.
  (* ... but if two sites give a file each to the same name, the lines of both go to the
     file of the first. *)
  Theorem C131_shared_refuted : forall h ns lvl cfg s1 rest s2 n v1 p1 x1 v2 p2 x2 l, set_up h ns lvl cfg ->
    h_servers h = s1 :: rest -> In s2 rest ->
    lookup leqb n (c_log_names (h_comm h)) = None ->
    lookup leqb n (c_log_names (v_comm s1)) = Some v1 -> entry v1 p1 x1 ->
    lookup leqb n (c_log_names (v_comm s2)) = Some v2 -> entry v2 p2 x2 -> p1 <> p2 ->
    ~ In (File p2) (sinks cfg n l) /\ (at_least x1 l -> sinks cfg n l = [File p1]).
  Proof.
    intros h ns lvl cfg s1 rest s2 n v1 p1 x1 v2 p2 x2 l E Hs I2 H0 H1 E1 H2 E2 D. apply entry_file in E1.
    assert (F : first_defined (all_commons (fill_http as_err h)) n v1).
    { eexists [_], _, _. unfold all_commons, fill_http. cbn [h_servers h_comm]. rewrite Hs. cbn [map flat_map app].
      split; [reflexivity|]. split.
      - unfold fill_server. cbn [v_comm c_log_names pre_deal copy_from_parent h_comm].
        rewrite lookup_over_not; [exact H1|]. apply (lookup_None_notin leqb leqb_ok). exact H0.
      - intros y [<-|[]]. exact H0. }
    unfold sinks. rewrite (named _ _ _ _ _ _ E F), E1. rewrite <- passes_ok. destruct (passes l (Some x1)).
    - split; [intros [X|[]]; congruence|reflexivity].
    - split; [intros []|discriminate].
  Qed.

  (* ---- C132 ---- *)
  (* C132, full statement: with an access log configured each request of a location is
     logged, one line in the log's file.  It is if the format is known and the level of the
     access log is within the level of the file ... *)
  Theorem C132_line_partial : forall cfg n p x fmts a f, lookup leqb n (g_loggers cfg) = Some (p, x) ->
    l_name a = n -> lookup leqb (l_format a) fmts = Some f -> at_least x (l_level a) ->
    log_access cfg fmts (Some a) = (Some f, [File p]).
  Proof.
    intros cfg n p x fmts a f L <- F A. unfold log_access, sinks. rewrite F, L. apply passes_ok in A. rewrite A. reflexivity.
  Qed.
  (* ... but not otherwise, and there is no error; in particular an access log without a
     level (parse_log: trace) never writes to a file without a level (info) ... *)
  Theorem C132_level_refuted : forall cfg fmts s a v p x,
    no_char 32 (l_name a) = true -> no_char 32 (l_format a) = true -> s = l_name a ++ 32 :: l_format a -> parse_log s = Ok a ->
    no_char 32 v = true -> entry v p x -> lookup leqb (l_name a) (g_loggers cfg) = Some (p, x) ->
    log_access cfg fmts (Some a) = (None, []).
  Proof.
    intros cfg fmts s a v p x Hn Hf Es Ps Hv En L. apply entry_file in En. unfold log_file in En. rewrite (split_on_one _ _ Hv) in En. injection En as _ <-.
    unfold parse_log in Ps. rewrite Es, (split_on_app _ _ _ Hn), (split_on_one _ _ Hf) in Ps. destruct a as [n f lv]. cbn in *. injection Ps as <-.
    unfold log_access, sinks. cbn [l_format l_name l_level]. rewrite L. destruct (lookup leqb f fmts); reflexivity.
  Qed.
  (* ... nor does one with a format that is not defined. *)
  Theorem C132_format_refuted : forall cfg fmts a, lookup leqb (l_format a) fmts = None -> log_access cfg fmts (Some a) = (None, []).
  Proof. intros cfg fmts a H. unfold log_access. rewrite H. reflexivity. Qed.

  (* ---- C133 ---- *)
  (* C133: logging can be set up exactly if every file can be opened, every name is valid
     and, with output to the terminal, no log is called stdout.  False: otherwise the
     start, or the reload, crashes instead of reporting an error. *)
  Theorem C133_exactly_refuted : forall names ns lvl,
    (exists cfg, init names ns lvl = Ok cfg) /\ (forall n v p x, In (n, v) names -> entry v p x -> can_open p = true /\ valid_name n = true) /\
      (ns = false -> ~ In (txt "stdout") (map fst names)) \/
    init names ns lvl = Panic /\ ((exists n v p x, In (n, v) names /\ entry v p x /\ (can_open p = false \/ valid_name n = false)) \/
      (ns = false /\ In (txt "stdout") (map fst names))).
  Proof.
    intros names ns lvl. unfold init, init_log.
    destruct (loggers_panics can_open names) as [[l E]|E]; rewrite E; cbn [rbind].
    2:{ right. split; [reflexivity|]. left. clear -E. induction names as [|[n v] names IH]; cbn [loggers] in E; [discriminate|].
        destruct (can_open (fst (log_file v))) eqn:Eo.
        - destruct (loggers can_open names) as [l| |]; try discriminate. destruct (IH eq_refl) as (n' & v' & p & x & I & R).
          exists n', v', p, x. split; [right; exact I|exact R].
        - destruct (log_file v) as [p x] eqn:Ef. exists n, v, p, x. split; [left; reflexivity|]. split; [apply entry_file; exact Ef|]. left. exact Eo. }
    destruct (loggers_ok _ _ _ E) as [-> F]. destruct (forallb (fun e => valid_name (fst e)) (map (fun e => (fst e, log_file (snd e))) names)) eqn:Ev.
    - assert (Vn : forall n v, In (n, v) names -> valid_name n = true).
      { intros n v I. rewrite forallb_forall in Ev. apply (Ev (n, log_file v)). apply in_map_iff. exists (n, v). split; [reflexivity|exact I]. }
      assert (Co : forall n v p x, In (n, v) names -> entry v p x -> can_open p = true).
      { intros n v p x I En. rewrite Forall_forall in F. specialize (F (n, v) I). apply entry_file in En. cbn [snd] in F. rewrite En in F. exact F. }
      unfold has. rewrite lookup_entries. cbn [andb].
      destruct ns; cbn [orb].
      + left. split; [eexists; reflexivity|]. split; [intros; split; eauto|discriminate].
      + destruct (lookup leqb (txt "stdout") names) as [v|] eqn:L; cbn [option_map negb].
        * right. split; [reflexivity|]. right. split; [reflexivity|]. apply lookup_In in L; [|apply leqb_ok]. apply in_map_iff. exists (txt "stdout", v). split; [reflexivity|exact L].
        * left. split; [eexists; reflexivity|]. split; [intros; split; eauto|]. intros _. apply (lookup_None_notin leqb leqb_ok). exact L.
    - right. split; [reflexivity|]. left. cbn [andb].
      assert (X : exists e, In e names /\ valid_name (fst e) = false).
      { clear -Ev. induction names as [|[n v] names IH]; cbn in Ev; [discriminate|]. destruct (valid_name n) eqn:En.
        - destruct (IH Ev) as (e & I & H). exists e. split; [right; exact I|exact H].
        - exists (n, v). split; [left; reflexivity|exact En]. }
      destruct X as ([n v] & I & H). destruct (log_file v) as [p x] eqn:Ef. exists n, v, p, x. split; [exact I|]. split; [apply entry_file; exact Ef|]. right. exact H.
  Qed.

  (* ---- C134 ---- *)
  (* C134: a line of a target that is not a configured log goes, within the default level,
     to the terminal unless that is switched off, and to the file of the log called
     default if there is one. *)
  Theorem C134_general : forall names ns lvl cfg target l s, init names ns lvl = Ok cfg -> ~ In target (map fst names) ->
    In s (sinks cfg target l) <->
    (match lvl with Some None => False | Some (Some m) => at_least m l | None => True end) /\
    ((s = Stdout /\ ns = false) \/ exists v p x, lookup leqb (txt "default") names = Some v /\ entry v p x /\ s = File p).
  Proof.
    intros names ns lvl cfg target l s E Nt. destruct (init_ok _ _ _ _ _ _ E) as (G1 & G2 & G3).
    assert (L : lookup leqb target (g_loggers cfg) = None).
    { rewrite G1, lookup_entries. destruct (lookup leqb target names) as [v|] eqn:L; [|reflexivity]. exfalso. apply Nt.
      apply lookup_In in L; [|apply leqb_ok]. apply in_map_iff. exists (target, v). split; [reflexivity|exact L]. }
    unfold sinks. rewrite L, G2, G3.
    assert (R : In s ((match lookup leqb (txt "default") names with Some v => [File (fst (log_file v))] | None => [] end) ++ (if ns then [] else [Stdout])) <->
                ((s = Stdout /\ ns = false) \/ exists v p x, lookup leqb (txt "default") names = Some v /\ entry v p x /\ s = File p)).
    { rewrite in_app_iff. split.
      - intros [H|H].
        + right. destruct (lookup leqb (txt "default") names) as [v|]; [|destruct H]. destruct H as [<-|[]].
          destruct (log_file v) as [p x] eqn:Ef. exists v, p, x. repeat split. apply entry_file. exact Ef.
        + left. destruct ns; [destruct H|]. destruct H as [<-|[]]. split; reflexivity.
      - intros [[-> ->]|(v & p & x & -> & En & ->)]; [right; left; reflexivity|]. left. apply entry_file in En. rewrite En. left. reflexivity. }
    destruct lvl as [[m|]|].
    - rewrite <- passes_ok. destruct (passes l (Some m)); [rewrite R; tauto|]. split; [intros []|intros [X _]; discriminate].
    - cbn [passes]. split; [intros []|intros [[] _]].
    - assert (P : passes l (Some LTrace) = true) by (destruct l; reflexivity). rewrite P, R. tauto.
  Qed.

  (* ---- C119 ---- *)
  (* C119: and with --access-log path no request is logged at all, whatever the path ... *)
  Theorem C119_access_log_refuted : forall path ns lvl cfg fmts, no_char 32 path = true ->
    init (cli_names path) ns lvl = Ok cfg -> log_access cfg fmts (Some cli_access) = (None, []).
  Proof.
    intros path ns lvl cfg fmts H E. destruct (init_ok _ _ _ _ _ _ E) as (G & _).
    eapply (C132_level_refuted cfg fmts (txt "access main") cli_access path path LInfo); try reflexivity; [exact H| |].
    - apply entry_file. unfold log_file. rewrite (split_on_one _ _ H). reflexivity.
    - rewrite G, lookup_entries. unfold cli_names. cbn [lookup]. change (leqb (l_name cli_access) (txt "access")) with true. cbn [option_map].
      unfold log_file. rewrite (split_on_one _ _ H). reflexivity.
  Qed.
  (* ... unless the option's value ends with the word trace. *)
  Theorem C119_access_log_trace : forall path ns lvl cfg fmts f, no_char 32 path = true ->
    init (cli_names (path ++ txt " trace")) ns lvl = Ok cfg -> lookup leqb (txt "main") fmts = Some f ->
    log_access cfg fmts (Some cli_access) = (Some f, [File path]).
  Proof.
    intros path ns lvl cfg fmts f H E F. destruct (init_ok _ _ _ _ _ _ E) as (G & _).
    apply C132_line_partial with (n := txt "access") (x := LTrace); [|reflexivity|exact F|].
    - rewrite G, lookup_entries. unfold cli_names. cbn [lookup]. change (leqb (txt "access") (txt "access")) with true. cbn [option_map].
      f_equal. apply entry_file. refine (e_level path (txt "trace") [] LTrace H eq_refl (or_introl eq_refl) _). apply level_said. reflexivity.
    - apply passes_ok. reflexivity.
  Qed.
End Props.
Print Assumptions C131_entry.
Print Assumptions C131_http_partial.
Print Assumptions C131_agree_partial.
Print Assumptions C131_shared_refuted.
Print Assumptions C132_line_partial.
Print Assumptions C132_level_refuted.
Print Assumptions C132_format_refuted.
Print Assumptions C133_exactly_refuted.
Print Assumptions C134_general.
Print Assumptions C119_access_log_refuted.
Print Assumptions C119_access_log_trace.

(* two sites with a log each, both called access *)
Definition no_set : setting -> option unit := fun _ => None.
Definition demo_site (file : text) : iserver (V := unit) := IServer (Common no_set [] [(txt "access", file)] []) [] [] [] None [].
Definition demo_http : ihttp (V := unit) := IHttp (Common no_set [] [(txt "default", txt "all.log info")] []) [] [demo_site (txt "a.log debug"); demo_site (txt "b.log")].
Example C131_demo : exists cfg, set_up (fun v => v) (fun _ => true) (fun _ => true) demo_http false None cfg /\
  sinks cfg (txt "access") LInfo = [File (txt "a.log")] /\ sinks cfg (txt "default") LWarn = [File (txt "all.log")] /\
  sinks cfg (txt "wmproxy") LDebug = [File (txt "all.log"); Stdout] /\ entry (txt "a.log debug") (txt "a.log") LDebug /\ entry (txt "b.log") (txt "b.log") LInfo.
Proof. eexists. repeat split; apply C131_entry; reflexivity. Qed.
(* a terminal that is switched off, a level, and a log called default *)
Example C134_case : exists cfg, init_log (fun _ => true) (fun _ => true) [(txt "default", txt "all.log debug")] true (Some (Some LWarn)) = Ok cfg /\
  sinks cfg (txt "wmproxy") LError = [File (txt "all.log")] /\ sinks cfg (txt "wmproxy") LInfo = [].
Proof. eexists. repeat split. Qed.
Example C132_demo : exists cfg, set_up (fun v => v) (fun _ => true) (fun _ => true) demo_http true None cfg /\
  log_access cfg [(txt "main", txt "{url}")] (Some (CLog (txt "access") (txt "main") LDebug)) = (Some (txt "{url}"), [File (txt "a.log")]) /\
  parse_log (txt "default main") = Ok (CLog (txt "default") (txt "main") LTrace) /\
  log_access cfg [(txt "main", txt "{url}")] (Some (CLog (txt "default") (txt "main") LTrace)) = (None, []).
Proof. eexists. repeat split. Qed.
Example C133_demo : init_log (fun p => negb (leqb p (txt "/no"))) (fun _ => true) [(txt "a", txt "/no")] true None = Panic /\
  init_log (fun _ => true) (fun _ => true) [(txt "stdout", txt "x.log")] false None = Panic.
Proof. split; reflexivity. Qed.
Example C119_access_log_demo : exists cfg, init_log (fun _ => true) (fun _ => true) (cli_names (txt "access.log")) false None = Ok cfg /\
  log_access cfg [(txt "main", txt "{url}")] (Some cli_access) = (None, []).
Proof. eexists. split; reflexivity. Qed.
