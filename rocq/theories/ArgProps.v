(* C116-C124: the command line and the life of the process. *)
From Coq Require Import String.
From Verif Require Import Base Text TextOps AddrModel ConfModel RouteModel RouteSpec RouteProofs HealthModel ArgModel ArgSpec ArgProofs.
Open Scope N_scope.

(* C116: with --forever the same command, without that word, is run again after every
   child that did not end well, and not after the first that did. *)
Theorem C116_again : forall args fates, Forall (fun w => ~ ended_well w) fates ->
  supervise args fates = (repeat args (S (length fates)), false).
Proof. exact supervise_failing. Qed.
Theorem C116_until : forall args fates w rest, Forall (fun w => ~ ended_well w) fates -> ended_well w ->
  supervise args (fates ++ w :: rest) = (repeat args (S (length fates)), true).
Proof. exact supervise_ends. Qed.
Theorem C116_command : forall X read yaml toml lh ls ss argv (c : command X) sh,
  sh_forever sh = true -> sh_daemon sh = false ->
  exists args, parse_env read yaml toml lh ls ss argv c sh = PForever args /\ without (txt "--forever") argv args /\ ~ In (txt "--forever") args.
Proof.
  intros X read yaml toml lh ls ss argv c sh F D. unfold parse_env. rewrite F, D. cbn [andb].
  eexists. split; [reflexivity|]. pose proof (filter_without (txt "--forever") argv) as W.
  split; [exact W|exact (without_not_in _ _ _ W)].
Qed.
Example C116_demo : supervise [txt "wmproxy"; txt "run"] [WExit (Some 101%Z); WErr; WExit None; WExit (Some 0%Z); WExit (Some 1%Z)] =
  ([[txt "wmproxy"; txt "run"]; [txt "wmproxy"; txt "run"]; [txt "wmproxy"; txt "run"]; [txt "wmproxy"; txt "run"]], true) /\
  without (txt "--forever") [txt "wmproxy"; txt "run"; txt "--forever"] [txt "wmproxy"; txt "run"].
Proof. split; [reflexivity|]. repeat (constructor; [discriminate|]). repeat constructor. Qed.
Print Assumptions C116_again.
Print Assumptions C116_until.
Print Assumptions C116_command.

(* C117, full statement: a server that could not start, or ended with an error, is seen
   to have failed, so that a supervisor starts it again.  Only a panic is: every error
   is printed and the status is 0, so supervision ends. *)
Theorem C117_error_refuted : forall X (p : parsed X) log_ok serve,
  (p = PErr \/ exists o, p = PStart o /\ log_ok o = true /\ serve o = SFailed) ->
  exit_status p log_ok serve = Some 0%Z /\
  forall args rest, supervise args (WExit (exit_status p log_ok serve) :: rest) = ([args], true).
Proof.
  intros X p log_ok serve H. assert (E : exit_status p log_ok serve = Some 0%Z).
  { destruct H as [->|(o & -> & L & S1)]; [reflexivity|]. cbn [exit_status]. rewrite L, S1. reflexivity. }
  split; [exact E|]. intros args rest. rewrite E. reflexivity.
Qed.
(* What is seen: a panic while reading the command line or setting up the logs. *)
Theorem C117_crash_partial : forall X (p : parsed X) log_ok serve,
  (p = PPanic \/ exists o, p = PStart o /\ log_ok o = false) ->
  exists n, exit_status p log_ok serve = Some n /\ n <> 0%Z /\
  forall args fates, supervise args (WExit (Some n) :: fates) = (args :: fst (supervise args fates), snd (supervise args fates)).
Proof.
  intros X p log_ok serve H. exists 101%Z. split; [|split; [discriminate|]].
  - destruct H as [->|(o & -> & L)]; [reflexivity|]; cbn [exit_status]. rewrite L. reflexivity.
  - intros args fates. cbn [supervise success]. destruct (supervise args fates). reflexivity.
Qed.
(* a configuration file that cannot be read is such an error *)
Example C117_demo : forall yaml toml : text -> option (copt N),
  let sh := Shared (SAddr localhost 8837) false false false false false None (txt "p") in
  parse_env (fun _ => None) yaml toml Some (fun s => s) (fun _ => []) [] (CRun (txt "a.toml")) sh = PErr /\
  parse_env (fun _ => Some []) yaml toml Some (fun s => s) (fun _ => []) [] (CRun (txt "conf")) sh = PPanic.
Proof. intros yaml toml. split; reflexivity. Qed.
Print Assumptions C117_error_refuted.
Print Assumptions C117_crash_partial.

(* C118, full statement: the shared options (control address, no control, no output,
   level, pid file) given with any command that starts a server are the ones it uses.
   They are for proxy, and but for the control port for the commands that need no file ... *)
Definition globals {X} (o : copt X) := (o_control o, o_no_stdout o, o_pid o, o_level o).
Definition asked_for (sh : shared) := (sh_control sh, sh_no_stdout sh, sh_pid sh, if sh_verbose sh then Some (FLevel LTrace) else sh_level sh).
Definition needs_no_file {X} (c : command X) : Prop := match c with CProxy _ | CFile _ | CReverse _ | CWs _ => True | _ => False end.
Theorem C118_shared_partial : forall X read yaml toml lh ls ss argv (c : command X) sh o,
  needs_no_file c -> parse_env read yaml toml lh ls ss argv c sh = PStart o ->
  globals o = asked_for sh /\ o_no_control o = match c with CProxy _ => sh_no_control sh | _ => true end.
Proof.
  intros X read yaml toml lh ls ss argv c sh o Hc. unfold parse_env.
  destruct (sh_daemon sh && sh_forever sh); [discriminate|]. destruct (sh_daemon sh); [discriminate|]. destruct (sh_forever sh); [discriminate|].
  assert (Z : forall o1, start lh ls o1 = PStart o -> globals o = globals o1 /\ o_no_control o = o_no_control o1).
  { intros o1. unfold start, after. destruct (o_http o1) as [h|]; [destruct (lh h); [|discriminate]|]; intros [= <-]; split; reflexivity. }
  destruct c as [x|p|a b|a b|p|a|a|a|]; try contradiction; intros H.
  - exact (Z _ H).
  - destruct (file_section a); [exact (Z _ H)|discriminate].
  - exact (Z _ H).
  - destruct (ws_section a); [exact (Z _ H)|discriminate].
Qed.
(* ... but run looks at none of them except --verbose: command lines that differ in the
   others come to the same. *)
Theorem C118_run_refuted : forall X read yaml toml lh ls ss argv argv' p sh sh',
  plain_run sh -> plain_run sh' -> sh_verbose sh = sh_verbose sh' ->
  parse_env (X := X) read yaml toml lh ls ss argv (CRun p) sh = parse_env read yaml toml lh ls ss argv' (CRun p) sh'.
Proof.
  intros X read yaml toml lh ls ss argv argv' p sh sh' [D F] [D' F'] V. unfold parse_env. rewrite D, F, D', F', V. reflexivity.
Qed.
Example C118_demo :
  let sh := Shared (SAddr localhost 1) true true false false false (Some FOff) (txt "mine") in
  let sh' := Shared (SAddr localhost 2) false false false false false None (txt "other") in
  plain_run sh /\ plain_run sh' /\ asked_for sh <> asked_for sh' /\
  parse_env (fun _ => None) (fun _ => None) (fun _ => None) Some (fun s => s) (fun _ => []) [] (CProxy 7) sh =
    PStart (COpt (Some 7) None None (SAddr localhost 1) true true (txt "mine") (Some FOff)).
Proof. repeat split. discriminate. Qed.
Print Assumptions C118_shared_partial.
Print Assumptions C118_run_refuted.

(* C119, full statement: every option of file-server has the effect it is documented to
   have.  The root, the addresses, the cache time, robots, the page for missing files,
   and CORS do, and the certificate, key and domain when there is an address for TLS.
   The header rules reach the location, which makes no use of them (FsProps);
   --access-log is in LsProps ... *)
Theorem C119_options_partial : forall a s, file_section a = Some s ->
  exists sv f, ac_servers s = [sv] /\ as_locs sv = [ALoc any_rule (Some f) (fa_headers a) None false] /\
  (fa_root a <> [] -> af_root f = Some (fa_root a)) /\ as_bind sv = fa_listen a /\
  as_ssl sv = match fa_ssl a with Some l => l | None => [] end /\
  (fa_ssl a <> None -> fa_cert a <> None /\ fa_key a <> None /\ as_cert sv = fa_cert a /\ as_key sv = fa_key a /\ as_domain sv = fa_domain a) /\
  af_cache f = fa_cache a /\ af_robots f = fa_robots a /\ af_404 f = fa_404 a /\ af_cors f = fa_cors a /\
  option_map snd (ac_log s) = fa_log a /\ as_up sv = [] /\ as_log sv = None /\ ac_ups s = [].
Proof.
  intros a s H. unfold file_section in H. cbv zeta in H. destruct (fa_ssl a) as [ssl|].
  - destruct (fa_cert a) as [c|]; [|discriminate]. destruct (fa_key a) as [k|]; [|discriminate].
    injection H as <-. do 2 eexists. repeat split; try discriminate; try reflexivity.
    + intros R. cbn. destruct (fa_root a); [contradiction|reflexivity].
    + cbn. unfold access. destruct (fa_log a); reflexivity.
  - injection H as <-. do 2 eexists. split; [reflexivity|]. split; [reflexivity|]. split; [|split; [reflexivity|split; [reflexivity|split; [intros E; contradiction|]]]].
    + intros R. cbn. destruct (fa_root a); [contradiction|reflexivity].
    + repeat split. cbn. unfold access. destruct (fa_log a); reflexivity.
Qed.
(* ... but --browse and --ext-mimetype have none: directories are always listed, no
   extension gets a type, and no file is hidden. *)
Theorem C119_ignored_refuted : forall root listen ssl cert key dom robots p404 cache cors headers log,
  let a browse types := FileArgs root listen ssl cert key dom browse robots p404 cache types cors headers log in
  (forall b b' t t', file_section (a b t) = file_section (a b' t')) /\
  (forall b t s sv l f, file_section (a b t) = Some s -> In sv (ac_servers s) -> In l (as_locs sv) -> al_file l = Some f ->
     af_browse f = true /\ af_types f = [] /\ af_hide f = []).
Proof.
  intros root listen ssl cert key dom robots p404 cache cors headers log a. split; [reflexivity|].
  intros b t s sv l f H. unfold file_section, a in H. cbn [fa_ssl fa_cert fa_key fa_root] in H. cbv zeta in H.
  destruct ssl as [ssl|].
  - destruct cert as [c|]; [|discriminate]. destruct key as [k|]; [|discriminate].
    injection H as <-. intros [<-|[]] [<-|[]] [= <-]. repeat split.
  - injection H as <-. intros [<-|[]] [<-|[]] [= <-]. repeat split.
Qed.
(* Without an address for TLS a certificate, key or domain is ignored as well. *)
Theorem C119_no_tls_refuted : forall root listen browse robots p404 cache types cors headers log cert key dom cert' key' dom',
  file_section (FileArgs root listen None cert key dom browse robots p404 cache types cors headers log) =
  file_section (FileArgs root listen None cert' key' dom' browse robots p404 cache types cors headers log).
Proof. reflexivity. Qed.
Example C119_demo : exists s, file_section (FileArgs (txt "www") [SAddr localhost 80] (Some [SAddr localhost 443]) (Some (txt "c")) (Some (txt "k"))
  (Some (txt "d")) false None None (Some 5) [] true [] (Some (txt "log"))) = Some s.
Proof. eexists. reflexivity. Qed.
Print Assumptions C119_options_partial.
Print Assumptions C119_ignored_refuted.
Print Assumptions C119_no_tls_refuted.

(* C120, full statement: a mode ws-proxy accepts is the conversion it does.  The three
   modes are accepted in any mixture of cases, and nothing else is ... *)
Theorem C120_accepted : forall a, (exists s, ws_section a = Some s) <-> exists name k, In (name, k) modes /\ spelled_as name (wa_mode a).
Proof.
  intros a. rewrite <- mode_ok_iff. unfold ws_section. destruct (mode_ok (wa_mode a)); split; intros H; try reflexivity; try discriminate.
  - eexists. reflexivity.
  - destruct H as [s H]. discriminate.
Qed.
(* ws-proxy is one server at the addresses given, whose only backend is the address given,
   in the mode, with the domain and with the log given. *)
Theorem C120_single : forall a s, ws_section a = Some s -> exists sv u,
  ac_servers s = [sv] /\ as_bind sv = wa_from a /\ as_ssl sv = [] /\ as_cert sv = None /\ as_key sv = None /\
  as_domain sv = wa_domain a /\ as_mode sv = wa_mode a /\ option_map snd (as_log sv) = wa_log a /\ as_locs sv = [] /\
  ac_ups s = [u] /\ au_name u = as_up sv /\ au_members u = [wa_to a].
Proof.
  intros a s H. unfold ws_section in H. destruct (mode_ok (wa_mode a)); [|discriminate]. injection H as <-.
  do 2 eexists. repeat (split; [try reflexivity|]); try reflexivity. cbn. unfold access. destruct (wa_log a); reflexivity.
Qed.
(* ... but only the lower case spelling does it; with any other, bytes are forwarded
   unconverted. *)
Theorem C120_case_refuted : forall a s sv, ws_section a = Some s -> In sv (ac_servers s) ->
  (forall name k, In (name, k) modes -> wa_mode a = name -> converts (as_mode sv) = k) /\
  ((forall name k, In (name, k) modes -> wa_mode a <> name) -> converts (as_mode sv) = Plain).
Proof.
  intros a s sv H Hin. unfold ws_section in H. destruct (mode_ok (wa_mode a)); [|discriminate]. injection H as <-.
  destruct Hin as [<-|[]]. cbn [as_mode]. split.
  - intros name k [E|[E|[E|[]]]] ->; injection E as <- <-; reflexivity.
  - intros N0. unfold converts.
    assert (Z : forall name k, In (name, k) modes -> leqb (wa_mode a) name = false).
    { intros name k Hm. destruct (leqb (wa_mode a) name) eqn:E; [|reflexivity]. apply leqb_ok in E. destruct (N0 _ _ Hm E). }
    rewrite (Z (txt "ws2tcp") WsToTcp), (Z (txt "tcp2ws") TcpToWs), (Z (txt "tcp2wss") TcpToWss) by (cbn; tauto). reflexivity.
Qed.
Example C120_demo : let a := WsArgs [SAddr localhost 1] (SAddr localhost 2) None (txt "WS2tcp") None false in
  (exists s sv, ws_section a = Some s /\ In sv (ac_servers s) /\ converts (as_mode sv) = Plain) /\ spelled_as (txt "ws2tcp") (wa_mode a).
Proof.
  split; [do 2 eexists; split; [reflexivity|split; [left; reflexivity|reflexivity]]|].
  cbv -[same_letter]. repeat (apply Forall2_cons; [unfold same_letter; lia|]). apply Forall2_nil.
Qed.
Print Assumptions C120_accepted.
Print Assumptions C120_single.
Print Assumptions C120_case_refuted.

(* C121, full statement: check says whether run can start with the file, and its status
   says the same.  What it says is right as far as reading goes ... *)
Theorem C121_verdict_partial : forall X read yaml toml lh ls ss argv p sh, plain_run sh ->
  (check_says (X := X) read yaml toml p = Ok false ->
     parse_env read yaml toml lh ls ss argv (CRun p) sh = PErr) /\
  (check_says (X := X) read yaml toml p = Ok true -> (forall h, lh h <> None) ->
     exists o, parse_env read yaml toml lh ls ss argv (CRun p) sh = PStart o).
Proof.
  intros X read yaml toml lh ls ss argv p sh [D F]. unfold check_says, parse_env. rewrite D, F. cbn [andb].
  destruct (read_config read yaml toml p) as [o|e|]; split; intros H; try discriminate; try reflexivity.
  intros Hl. unfold start, after. destruct (o_http (with_verbose (sh_verbose sh) o)) as [h|]; [|eexists; reflexivity].
  specialize (Hl h). destruct (lh h); [eexists; reflexivity|contradiction].
Qed.
(* ... but the status is the same for a good and a bad file ... *)
Theorem C121_status_refuted : forall X read yaml toml lh ls ss argv p sh b log_ok serve, plain_run sh ->
  check_says (X := X) read yaml toml p = Ok b ->
  exit_status (parse_env read yaml toml lh ls ss argv (CCheck p) sh) log_ok serve = Some 0%Z.
Proof.
  intros X read yaml toml lh ls ss argv p sh b log_ok serve [D F]. unfold check_says, parse_env. rewrite D, F. cbn [andb].
  destruct (read_config read yaml toml p); intros H; try discriminate; reflexivity.
Qed.
(* ... and a readable file whose name has no dot, or only one at its start, crashes check, run, stop and reload
   instead of being reported. *)
Theorem C121_crash_refuted : forall X read yaml toml lh ls ss argv p c url sh content, plain_run sh ->
  read p = Some content -> no_extension p ->
  In c [CCheck p; CRun p; CStop (Some p) url; CReload (Some p) url] ->
  parse_env (X := X) read yaml toml lh ls ss argv c sh = PPanic.
Proof.
  intros X read yaml toml lh ls ss argv p c url sh content [D F] R E Hc.
  assert (P : read_config read yaml toml p = Panic) by (unfold read_config; rewrite R, (extension_none _ E); reflexivity).
  unfold parse_env. rewrite D, F. cbn [andb].
  destruct Hc as [<-|[<-|[<-|[<-|[]]]]]; unfold asked; rewrite P; reflexivity.
Qed.
(* Which parser reads a file is decided by the end of its name alone. *)
Theorem C121_formats : forall X read yaml toml p content e, read p = Some content -> has_extension p e ->
  read_config (X := X) read yaml toml p =
  (if leqb e (txt "yaml") then match yaml content with Some o => Ok o | None => Err tt end
   else if leqb e (txt "toml") then match toml content with Some o => Ok o | None => Err tt end else Err tt).
Proof. intros X read yaml toml p content e R E. unfold read_config. rewrite R, (extension_some _ _ E). reflexivity. Qed.
(* run with a good file starts with what the file says, prepared; only the level of the
   log is another one with --verbose. *)
Theorem C121_started : forall X read yaml toml lh ls ss argv p sh content (o o' : copt X), plain_run sh -> read p = Some content ->
  (has_extension p (txt "yaml") /\ yaml content = Some o \/ has_extension p (txt "toml") /\ toml content = Some o) ->
  parse_env read yaml toml lh ls ss argv (CRun p) sh = PStart o' ->
  o_proxy o' = o_proxy o /\ (forall h, o_http o = Some h -> lh h <> None /\ o_http o' = lh h) /\ (o_http o = None -> o_http o' = None) /\ o_stream o' = option_map ls (o_stream o) /\
  o_control o' = o_control o /\ o_no_stdout o' = o_no_stdout o /\ o_no_control o' = o_no_control o /\ o_pid o' = o_pid o /\
  (sh_verbose sh = true -> o_level o' = Some (FLevel LTrace)) /\ (sh_verbose sh = false -> o_level o' = o_level o).
Proof.
  intros X read yaml toml lh ls ss argv p sh content o o' [D F] R E H.
  assert (C : read_config read yaml toml p = Ok o).
  { unfold read_config. rewrite R. destruct E as [(E & Q)|(E & Q)]; rewrite (extension_some _ _ E), Q; reflexivity. }
  unfold parse_env in H. rewrite D, F, C in H. cbn [andb] in H. unfold start, after in H. cbn [with_verbose o_http] in H.
  destruct (o_http o) as [h|] eqn:Eh; [destruct (lh h) as [h'|] eqn:El; [|discriminate H]|]; injection H as <-; cbn [with_verbose o_proxy o_http o_stream o_control o_no_stdout o_no_control o_pid o_level];
    (split; [reflexivity|]; split; [|split; [|split; [reflexivity|split; [reflexivity|split; [reflexivity|split; [reflexivity|split; [reflexivity|split; intros ->; reflexivity]]]]]]]).
  - intros h0 [= <-]. rewrite El. split; [discriminate|reflexivity].
  - discriminate.
  - discriminate.
  - reflexivity.
Qed.
Example C121_demo : has_extension (txt "etc/my.conf.toml") (txt "toml") /\ no_extension (txt "etc.d/config") /\ no_extension (txt "etc/.toml").
Proof.
  split.
  - exists (txt "etc"), (txt "my.conf"). split; [right; reflexivity|]. cbn. split; [discriminate|]. repeat split; intros H; repeat destruct H as [H|H]; try discriminate; contradiction.
  - split.
    + exists (txt "etc.d"), (txt "config"). split; [right; reflexivity|]. split; [|left]; intros H; repeat destruct H as [H|H]; try discriminate; contradiction.
    + exists (txt "etc"), (txt ".toml"). split; [right; reflexivity|]. split; [|right; exists (txt "toml"); split; [reflexivity|]];
        intros H; repeat destruct H as [H|H]; try discriminate; contradiction.
Qed.
Print Assumptions C121_verdict_partial.
Print Assumptions C121_status_refuted.
Print Assumptions C121_crash_refuted.
Print Assumptions C121_formats.
Print Assumptions C121_started.

(* C122, full statement: stop and reload reach the server whose configuration is given,
   and their status says whether they had success.  They ask the control address of the
   file, or the given URL, and say success for status 200 only ... *)
Theorem C122_asks_partial : forall X read yaml toml lh ls ss argv sh cfg url, plain_run sh ->
  (forall p o, cfg = Some p -> read_config (X := X) read yaml toml p = Ok o ->
     parse_env read yaml toml lh ls ss argv (CStop cfg url) sh = PAsk (txt "http://" ++ ss (o_control o)) (txt "/stop") /\
     parse_env read yaml toml lh ls ss argv (CReload cfg url) sh = PAsk (txt "http://" ++ ss (o_control o)) (txt "/reload")) /\
  (forall u, cfg = None -> url = Some u ->
     parse_env (X := X) read yaml toml lh ls ss argv (CStop cfg url) sh = PAsk u (txt "/stop") /\
     parse_env (X := X) read yaml toml lh ls ss argv (CReload cfg url) sh = PAsk u (txt "/reload")).
Proof.
  intros X read yaml toml lh ls ss argv sh cfg url [D F]. unfold parse_env, asked. rewrite D, F. cbn [andb]. split.
  - intros p o -> E. rewrite E. split; reflexivity.
  - intros u -> ->. split; reflexivity.
Qed.
(* ... but the status is 0 whatever the answer, also when the server cannot be reached,
   and when reload is not told whom to ask. *)
Theorem C122_status_refuted : forall X read yaml toml lh ls ss argv sh log_ok serve, plain_run sh ->
  (forall r, r <> RClosed -> exit_status (snd (after_ask (X := X) r)) log_ok serve = Some 0%Z) /\
  exit_status (parse_env (X := X) read yaml toml lh ls ss argv (CReload None None) sh) log_ok serve = Some 0%Z.
Proof.
  intros X read yaml toml lh ls ss argv sh log_ok serve [D F]. split.
  - intros [| |s] H; [reflexivity|contradiction|reflexivity].
  - unfold parse_env. rewrite D, F. reflexivity.
Qed.
(* stop without a file and an address ends the process whose number is in the pid file: it is
   handed to kill, whose status is the status, 0 if a signal ended it; an empty file is a failure *)
Theorem C122_pid : forall X read yaml toml lh ls ss argv sh kill, plain_run sh ->
  (forall pid, read (sh_pid sh) = Some pid -> parse_env (X := X) read yaml toml lh ls ss argv (CStop None None) sh = PKill pid) /\
  (forall pid c log_ok serve, pid <> [] -> kill pid = Some c -> exit_status (after_kill (X := X) kill pid) log_ok serve = Some c) /\
  (forall pid log_ok serve, pid <> [] -> kill pid = None -> exit_status (after_kill (X := X) kill pid) log_ok serve = Some 0%Z) /\
  (forall log_ok serve, exit_status (after_kill (X := X) kill []) log_ok serve = Some (-1)%Z).
Proof.
  intros X read yaml toml lh ls ss argv sh kill [D F]. split; [|split; [|split]].
  - intros pid R. unfold parse_env. rewrite D, F. cbn [andb asked]. rewrite R. reflexivity.
  - intros [|b pid] c log_ok serve N K; [contradiction|]. unfold after_kill. rewrite K. reflexivity.
  - intros [|b pid] log_ok serve N K; [contradiction|]. unfold after_kill. rewrite K. reflexivity.
  - reflexivity.
Qed.
(* a command line that asks for its version, or for both --daemon and --forever, starts
   nothing and ends with status 0 *)
Theorem C122_nothing : forall X read yaml toml lh ls ss argv c sh log_ok serve,
  c = CVersion /\ plain_run sh \/ sh_daemon sh = true /\ sh_forever sh = true ->
  (forall o, parse_env (X := X) read yaml toml lh ls ss argv c sh <> PStart o) /\
  exit_status (parse_env (X := X) read yaml toml lh ls ss argv c sh) log_ok serve = Some 0%Z.
Proof.
  intros X read yaml toml lh ls ss argv c sh log_ok serve [[-> [D F]]|[D F]]; unfold parse_env; rewrite D, F; (split; [discriminate|reflexivity]).
Qed.
Theorem C122_says : forall X s, fst (after_ask (X := X) (RStatus s)) = Some true <-> s = 200.
Proof.
  intros X s. cbn. split; [|intros ->; reflexivity]. intros [= H]. apply N.eqb_eq. exact H.
Qed.
Example C122_demo : exit_status (snd (after_ask (X := N) (RStatus 500))) (fun _ => true) (fun _ => SStopped) = Some 0%Z /\
  plain_run (Shared (SAddr localhost 1) true true false false false None []).
Proof. split; [reflexivity|split; reflexivity]. Qed.
Print Assumptions C122_asks_partial.
Print Assumptions C122_status_refuted.
Print Assumptions C122_pid.
Print Assumptions C122_nothing.
Print Assumptions C122_says.

(* C123: reverse-proxy has one location, which takes every request, whatever its path,
   method, host, scheme and client; its only backend is the given address, asked for
   over TLS exactly with --tls.  That the requests go there: TgtProps. *)
Theorem C123_single : forall a, exists sv l,
  ac_servers (reverse_section a) = [sv] /\ as_locs sv = [l] /\ as_bind sv = ra_from a /\ as_ssl sv = [] /\
  (forall regex parse_ip path r, loc_match regex parse_ip (al_rule l) path r = true) /\
  al_file l = None /\ al_headers l = ra_headers a /\ al_ws l = ra_ws a /\ as_up sv = [] /\
  (exists u, ac_ups (reverse_section a) = [u] /\ au_members u = [ra_to a] /\ al_url l = Some (ra_tls a, au_name u)).
Proof.
  intros a. do 2 eexists. split; [reflexivity|]. split; [reflexivity|]. split; [reflexivity|]. split; [reflexivity|].
  split; [|split; [reflexivity|split; [reflexivity|split; [reflexivity|split; [reflexivity|eexists; split; [reflexivity|split; reflexivity]]]]]].
  intros regex parse_ip path r. cbn [al_rule]. unfold loc_match, match_rule, path_rule. cbn [m_path any_rule].
  assert (M : is_match path (txt "*") = true).
  { apply is_match_star; [left; reflexivity|]. apply glob_star_iff. exists path, []. rewrite app_nil_r. split; [reflexivity|constructor]. }
  rewrite M. reflexivity.
Qed.
Print Assumptions C123_single.

(* C124, full statement: wmproxy stop with a pid file signals a server that runs with this
   file, and nothing else.  It does as long as no server ended out of order and each one
   ended before the next was started ... *)
Definition tidy (es : list pev) : Prop :=
  exists ps tail, es = flat_map (fun p => [PvStart p true; PvEnd p]) ps ++ tail /\
  (tail = [] \/ exists p, tail = [PvStart p true]).
Theorem C124_signal_partial : forall es q, tidy es -> snd (pstep (fst (prun (PSt None []) es)) PvStop) = Some q ->
  In q (p_live (fst (prun (PSt None []) es))).
Proof.
  intros es q (ps & tail & -> & Ht).
  assert (A : forall ps rest, fst (prun (PSt None []) (flat_map (fun p => [PvStart p true; PvEnd p]) ps ++ rest)) = fst (prun (PSt None []) rest)).
  { intros l. induction l as [|p l IH]; intros rest; [reflexivity|].
    specialize (IH rest). cbn [flat_map app prun pstep p_live p_file existsb filter].
    rewrite N.eqb_refl. cbn [orb negb].
    destruct (prun (PSt None []) _) as [s2 os]. exact IH. }
  rewrite A. destruct Ht as [->|[p ->]]; cbn; [discriminate|]. intros [= <-]. left. reflexivity.
Qed.
(* ... but a signal leaves the file behind, stop's own included: from then on, and until
   another server writes it, stop signals whoever has the number now. *)
Definition leaves (p : N) (e : pev) : Prop := match e with PvStart _ w => w = false | PvEnd q => q <> p | _ => True end.
Theorem C124_stale_refuted : forall s p how later, In how [PvKilled p; PvStop] -> Forall (leaves p) later ->
  let st := fst (prun s (PvStart p true :: how :: later)) in
  snd (pstep st PvStop) = Some p /\ ((forall q w, In (PvStart q w) later -> q <> p) -> ~ In p (p_live st)).
Proof.
  intros s p how later Hh H st.
  assert (A : forall es s0, p_file s0 = Some p -> Forall (leaves p) es ->
     p_file (fst (prun s0 es)) = Some p /\ (~ In p (p_live s0) -> (forall q w, In (PvStart q w) es -> q <> p) -> ~ In p (p_live (fst (prun s0 es))))).
  { induction es as [|e es IH]; intros s0 F0 HF; [split; [exact F0|auto]|]. apply Forall_cons_iff in HF as [He HF].
    cbn [prun]. destruct (pstep s0 e) as [s1 o] eqn:E.
    assert (Q : p_file s1 = Some p /\ (~ In p (p_live s0) -> (forall q w, e = PvStart q w -> q <> p) -> ~ In p (p_live s1))).
    { destruct e as [q w|q|q|]; cbn [pstep leaves] in *.
      - rewrite He in E. injection E as <- _. split; [exact F0|]. intros N0 N1 [E|E]; [exact (N1 q w eq_refl E)|contradiction].
      - destruct (existsb (N.eqb q) (p_live s0)); injection E as <- _; [|split; auto].
        rewrite F0. cbn [p_file p_live]. destruct (N.eqb_spec p q); [congruence|]. split; [reflexivity|].
        intros N0 _ Hin. apply filter_In in Hin. tauto.
      - injection E as <- _. split; [exact F0|]. intros N0 _ Hin. apply filter_In in Hin. tauto.
      - rewrite F0 in E. injection E as <- _. split; [exact F0|]. intros N0 _ Hin. apply filter_In in Hin. tauto. }
    destruct Q as [Q1 Q2]. destruct (IH s1 Q1 HF) as [I1 I2]. destruct (prun s1 es) as [s2 os]. cbn [fst] in *.
    split; [exact I1|]. intros N0 N1. apply I2; [apply Q2; [exact N0|intros q w ->; apply (N1 q w); left; reflexivity]|].
    intros q w Hin. apply (N1 q w). right. exact Hin. }
  set (s1 := gone p (PSt (Some p) (p :: p_live s))).
  assert (R : st = fst (prun s1 later)).
  { unfold st. destruct Hh as [<-|[<-|[]]]; cbn [prun pstep p_live p_file]; fold s1; destruct (prun s1 later); reflexivity. }
  destruct (A later s1 eq_refl H) as [A1 A2]. rewrite R. split; [exact A1|]. intros N1. apply A2; [|exact N1].
  intros Hin. apply filter_In in Hin as [_ Hin]. rewrite N.eqb_refl in Hin. discriminate.
Qed.
(* A server that ends by itself removes the file exactly if it names this server. *)
Theorem C124_own : forall s p, In p (p_live s) ->
  p_file (fst (pstep s (PvEnd p))) = if match p_file s with Some q => q =? p | None => false end then None else p_file s.
Proof.
  intros s p H. cbn [pstep]. replace (existsb (N.eqb p) (p_live s)) with true.
  - cbn. destruct (p_file s) as [q|]; [destruct (q =? p)|]; reflexivity.
  - symmetry. apply existsb_exists. exists p. split; [exact H|apply N.eqb_refl].
Qed.
Example C124_demo : tidy [PvStart 5 true; PvEnd 5; PvStart 9 true] /\
  snd (prun (PSt None []) [PvStart 5 true; PvStop; PvStart 7 false; PvStop]) = [None; Some 5; None; Some 5].
Proof. split; [exists [5], [PvStart 9 true]; split; [reflexivity|right; exists 9; reflexivity]|reflexivity]. Qed.
Print Assumptions C124_signal_partial.
Print Assumptions C124_stale_refuted.
Print Assumptions C124_own.
