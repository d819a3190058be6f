(* C119: from the words of a file-server or reverse-proxy command to the lines of its
   access log: the section of the command, loaded (NwModel), its log files (LsModel). *)
From Coq Require Import String.
From Verif Require Import Base Text TextOps AddrModel ConfModel RouteModel InhModel ArgModel ArgProps OpModel OpSpec OpProofs OpProps NwModel LsModel LsSpec LsProofs LsProps PlModel PlSpec PlProps FsModel FsSpec FsProofs FsProps.
Open Scope N_scope.

(* reverse/http.rs:116-125: the http section of a command as it is loaded, with its formats *)
Definition loaded (s : asection) : ihttp := load_http (fun x => x) (ihttp_of s).

Lemma log_one s v l log : ac_servers s = [v] -> as_locs v = [l] -> as_log v = None -> ac_log s = access log ->
  get_log_names (Some (loaded s)) = match log with Some p => [(txt "access", p)] | None => [] end /\
  forall c, setting_of (loaded s) c -> c_set c access_log = option_map (fun p => (txt "access", p)) log /\ lookup leqb (txt "main") (c_log_format c) = Some main_format.
Proof.
  intros E1 E2 E3 E4. unfold loaded, load_http, ihttp_of. rewrite E1, E4. cbn [map]. unfold iserver_of. rewrite E2, E3. cbn [map].
  split; [destruct log; reflexivity|]. intros c H. destruct H as [|s' H|s' l' H H'].
  - destruct log; split; reflexivity.
  - destruct H as [<-|[]]. destruct log; split; reflexivity.
  - destruct H as [<-|[]]. destruct H' as [<-|[]]. destruct log; split; reflexivity.
Qed.

Section C119.
  Context (parse_ip : text -> option ipaddr) (parse_sa : text -> option saddr) (local4 local6 : option ipaddr).
  Context (read_file : text -> option text) (yaml toml : text -> option (@copt (list (text * list val)))) (show_sa : saddr -> text).
  Notation asked_start := (asked_start parse_ip parse_sa local4 local6 read_file yaml toml load_web load_streams show_sa).

  (* the section a command builds, s0, is what is served once it is loaded; the only log
     there is, is the one --access-log names, every server and location has it as its
     access log, and the format it asks for is there *)
  Theorem C119_log_set : forall argv c ws o, asked_start argv (txt c :: ws) = Some o -> In c ["file-server"; "reverse-proxy"]%string ->
    exists s0 s os log, load_web s0 = Some s /\ o_http o = Some s /\ spelled ws (flat_map written os) /\ said "access-log" os log /\
      get_log_names (Some (loaded s0)) = match log with Some p => [(txt "access", p)] | None => [] end /\
      forall c, setting_of (loaded s0) c -> c_set c access_log = option_map (fun p => (txt "access", p)) log /\ lookup leqb (txt "main") (c_log_format c) = Some main_format.
  Proof.
    intros argv cn ws o H I. destruct (start_line _ _ _ _ _ _ _ _ _ _ _ _ _ _ H) as (c & sh & L & Pe). destruct (C171_settings_partial _ _ _ _ _ _ _ _ L) as (W & cm & os & _ & Sp & _ & _ & B).
    unfold parse_env in Pe. destruct (sh_daemon sh && sh_forever sh); [discriminate|]. destruct (sh_daemon sh); [discriminate|]. destruct (sh_forever sh); [discriminate|].
    destruct I as [<-|[<-|[]]].
    - assert (E : exists a, c = CFile a) by (destruct c; try (exfalso; revert W; vm_compute; discriminate); eauto). destruct E as (a & ->).
      destruct (file_section a) as [s|] eqn:Es; [|discriminate]. unfold start, after in Pe. cbn [with_http from_shared o_http] in Pe. injection Pe as <-. cbn [o_http with_http].
      exists s. eexists. exists os, (fa_log a). split; [reflexivity|]. split; [reflexivity|]. split; [exact Sp|]. split.
      + destruct B as (_ & _ & _ & _ & _ & _ & _ & _ & _ & _ & _ & _ & _ & B). apply may_str in B. unfold said. rewrite B. destruct (fa_log a); reflexivity.
      + unfold file_section in Es. destruct (fa_ssl a); [destruct (fa_cert a), (fa_key a); try discriminate Es|]; injection Es as <-; eapply log_one; reflexivity.
    - assert (E : exists a, c = CReverse a) by (destruct c; try (exfalso; revert W; vm_compute; discriminate); eauto). destruct E as (a & ->).
      unfold start, after in Pe. cbn [with_http from_shared o_http] in Pe. injection Pe as <-. cbn [o_http with_http].
      exists (reverse_section a). eexists. exists os, (ra_log a). split; [reflexivity|]. split; [reflexivity|]. split; [exact Sp|]. split.
      + destruct B as (_ & _ & _ & B & _). apply may_str in B. unfold said. rewrite B. destruct (ra_log a); reflexivity.
      + eapply log_one; reflexivity.
  Qed.

  (* what is written for a request at one of the locations: with --access-log "path trace"
     one line in that format to that path, with --access-log path nothing at all, and
     without the option no file is opened *)
  Theorem C119_log_lines : forall argv c ws o can_open valid_name ns lvl cfg, asked_start argv (txt c :: ws) = Some o -> In c ["file-server"; "reverse-proxy"]%string ->
    exists s0 s os log, load_web s0 = Some s /\ o_http o = Some s /\ spelled ws (flat_map written os) /\ said "access-log" os log /\
      (init_log can_open valid_name (get_log_names (Some (loaded s0))) ns lvl = Ok cfg ->
       forall k, setting_of (loaded s0) k ->
       (forall path, no_char 32 path = true -> log = Some (path ++ txt " trace") ->
          can_open path = true /\ log_access cfg (c_log_format k) (Some cli_access) = (Some main_format, [File path])) /\
       (forall path, no_char 32 path = true -> log = Some path -> can_open path = true /\ log_access cfg (c_log_format k) (Some cli_access) = (None, [])) /\
       (log = None -> c_set k access_log = None /\ g_loggers cfg = [])).
  Proof.
    intros argv c ws o co vn ns lvl cfg H I. destruct (C119_log_set _ _ _ _ H I) as (s0 & s & os & log & A1 & A2 & A3 & A4 & A5 & A6).
    exists s0, s, os, log. do 4 (split; [assumption|]). intros E k K. destruct (A6 _ K) as (K1 & K2). rewrite A5 in E.
    split; [|split].
    - intros path P ->. split.
      + unfold init_log in E. cbn [loggers] in E. assert (F : log_file (path ++ txt " trace") = (path, LTrace)).
        { apply C131_entry. refine (e_level path (txt "trace") [] LTrace P eq_refl (or_introl eq_refl) _). apply level_said. reflexivity. }
        rewrite F in E. cbn [fst] in E. destruct (co path); [reflexivity|discriminate].
      + eapply C119_access_log_trace; [exact P|exact E|exact K2].
    - intros path P ->. split.
      + unfold init_log in E. cbn [loggers] in E. assert (F : log_file path = (path, LInfo)) by (apply C131_entry; apply e_plain; exact P).
        rewrite F in E. cbn [fst] in E. destruct (co path); [reflexivity|discriminate].
      + eapply C119_access_log_refuted; [exact P|exact E].
    - intros ->. split; [exact K1|]. unfold init_log in E. cbn [loggers rbind forallb] in E.
      destruct (true && _); [|discriminate]. injection E as <-. reflexivity.
  Qed.

  (* ws-proxy takes the option too, but the file it names is never opened: logs of stream
     sections are not looked at *)
  Theorem C119_ws_log_refuted : forall argv ws o can_open valid_name ns lvl, asked_start argv (txt "ws-proxy" :: ws) = Some o ->
    (exists s os log, o_stream o = Some s /\ spelled ws (flat_map written os) /\ said "access-log" os log /\ ac_servers s <> [] /\
       forall v, In v (ac_servers s) -> option_map snd (as_log v) = log) /\
    exists cfg, init_log can_open valid_name (get_log_names (option_map loaded (o_http o))) ns lvl = Ok cfg /\ g_loggers cfg = [].
  Proof.
    intros argv ws o co vn ns lvl H. assert (N1 : o_http o = None).
    { destruct (start_line _ _ _ _ _ _ _ _ _ _ _ _ _ _ H) as (c & sh & L & Pe). destruct (C171_settings_partial _ _ _ _ _ _ _ _ L) as (W & cm & os & _ & Sp & _ & _ & B).
      unfold parse_env in Pe. destruct (sh_daemon sh && sh_forever sh); [discriminate|]. destruct (sh_daemon sh); [discriminate|]. destruct (sh_forever sh); [discriminate|].
      assert (E : exists a, c = CWs a) by (destruct c; try (exfalso; revert W; vm_compute; discriminate); eauto). destruct E as (a & ->).
      destruct (ws_section a) as [s|] eqn:Es; [|discriminate]. unfold start, after in Pe. cbn [with_stream from_shared o_http] in Pe. injection Pe as <-. reflexivity. }
    split.
    - destruct (C178_access_log _ _ _ _ _ _ _ _ argv "ws-proxy"%string ws o H) as (s & os & log & [A|A] & B); [simpl; auto|congruence|]. exists s, os, log. split; [exact A|exact B].
    - rewrite N1. unfold init_log. cbn [option_map get_log_names loggers rbind forallb].
      replace (ns || negb (has leqb (txt "stdout") (@nil (text * (text * level))))) with true by (destruct ns; reflexivity).
      eexists. split; reflexivity.
  Qed.
End C119.
Print Assumptions C119_log_set.
Print Assumptions C119_log_lines.
Print Assumptions C119_ws_log_refuted.

(* the three commands, with and without the word trace *)
Example C119_log_demo :
  (match fs_start ["file-server"; "-l"; "0.0.0.0:8091"; "--access-log"; "a.log trace"]%string with
   | Some o => match o_http o with Some s => ac_log s = Some (txt "access", txt "a.log trace") /\ map as_log (ac_servers s) = [Some (txt "access", txt "a.log trace")] | None => False end
   | None => False end) /\
  (match fs_start ["ws-proxy"; "-t"; "0.0.0.0:8091"; "--mode"; "ws2tcp"; "--access-log"; "a.log"]%string with
   | Some o => o_http o = None /\ o_stream o <> None
   | None => False end) /\
  exists cfg, init_log (fun _ => true) (fun _ => true) [(txt "access", txt "a.log trace")] true None = Ok cfg /\ sinks cfg (txt "access") LTrace = [File (txt "a.log")].
Proof. split; [vm_compute; auto|]. split; [vm_compute; split; [reflexivity|discriminate]|]. eexists. split; reflexivity. Qed.
