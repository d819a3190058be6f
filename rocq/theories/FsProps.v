(* C184: what a file-server command line makes the program serve; C119, C178. *)
From Coq Require Import String.
From Verif Require Import Base Text TextOps AddrModel ConfModel RouteModel InhModel ArgModel ArgProps OpModel OpSpec OpProofs OpProps FileModel FileSpec FileProofs FileProps BindProofs PlModel PlSpec PlProps FsModel FsSpec FsProofs.
Open Scope N_scope.

Section C184.
  Context (parse_ip : text -> option ipaddr) (parse_sa : text -> option saddr) (local4 local6 : option ipaddr).
  Notation reads := (reads parse_ip parse_sa local4 local6).
  Context (read_file : text -> option text) (yaml toml : text -> option (@copt (list (text * list val)))) (show_sa : saddr -> text).
  Notation asked_start := (asked_start parse_ip parse_sa local4 local6 read_file yaml toml load_web load_streams show_sa).
  Context (decode : text -> option text) (date : text -> option N) (fdate : N -> text) (seek : option N -> N -> N -> bool)
          (fs : node) (cwd : list text) (cwdt : text)
          (regex : text -> option (text -> bool)) (fmt : request -> text -> text)
          (limit : lreq -> text -> list fresp -> limres * list fresp) (rehost : location -> request -> list fresp -> option text)
          (closed : RouteModel.key -> list fresp -> bool) (reuse : RouteModel.key -> request -> list fresp -> option (res unit N) * list fresp)
          (same_key : RouteModel.key -> RouteModel.key -> bool).
  Notation gets := (file_gets decode date fdate seek fs cwd cwdt regex parse_ip fmt limit rehost closed reuse same_key).
  Notation deal_files := (FileModel.deal decode date fdate seek fs cwd cwdt).

  (* C178: loading as it is done changes no address, file or mode, so what is assumed there
     holds of it *)
  Theorem C178_loader : keeps_addresses load_web load_streams.
  Proof. exact load_keeps. Qed.

  (* the access log of the servers is the one --access-log names, and without the option
     there is none *)
  Theorem C178_access_log : forall argv c ws o, asked_start argv (txt c :: ws) = Some o -> In c ["file-server"; "reverse-proxy"; "ws-proxy"]%string ->
    exists s os log, (o_http o = Some s \/ o_stream o = Some s) /\ spelled ws (flat_map written os) /\ said "access-log" os log /\
      ac_servers s <> [] /\ forall v, In v (ac_servers s) -> option_map snd (as_log v) = log.
  Proof.
    intros argv cn ws o H I. destruct (start_line _ _ _ _ _ _ _ _ _ _ _ _ _ _ H) as (c & sh & L & Pe). destruct (C171_settings_partial _ _ _ _ _ _ _ _ L) as (W & cm & os & _ & Sp & _ & _ & B).
    unfold parse_env in Pe. destruct (sh_daemon sh && sh_forever sh); [discriminate|]. destruct (sh_daemon sh); [discriminate|]. destruct (sh_forever sh); [discriminate|].
    destruct I as [<-|[<-|[<-|[]]]].
    - assert (E : exists a, c = CFile a) by (destruct c; try (exfalso; revert W; vm_compute; discriminate); eauto). destruct E as (a & ->).
      destruct (file_section a) as [s|] eqn:Es; [|discriminate]. unfold start, after in Pe. cbn [with_http from_shared o_http] in Pe. injection Pe as <-. cbn [o_http o_stream with_http].
      eexists. exists os, (fa_log a). split; [left; reflexivity|]. split; [exact Sp|]. split; [|split].
      + destruct B as (_ & _ & _ & _ & _ & _ & _ & _ & _ & _ & _ & _ & _ & B). apply may_str in B. unfold said. rewrite B. destruct (fa_log a); reflexivity.
      + unfold file_section in Es. destruct (fa_ssl a); [destruct (fa_cert a), (fa_key a); try discriminate Es|]; injection Es as <-; discriminate.
      + intros v. unfold file_section in Es. destruct (fa_ssl a); [destruct (fa_cert a), (fa_key a); try discriminate Es|]; injection Es as <-; intros [<-|[]]; cbn; destruct (fa_log a); reflexivity.
    - assert (E : exists a, c = CReverse a) by (destruct c; try (exfalso; revert W; vm_compute; discriminate); eauto). destruct E as (a & ->).
      unfold start, after in Pe. cbn [with_http from_shared o_http] in Pe. injection Pe as <-. cbn [o_http o_stream with_http].
      eexists. exists os, (ra_log a). split; [left; reflexivity|]. split; [exact Sp|]. split; [|split].
      + destruct B as (_ & _ & _ & B & _). apply may_str in B. unfold said. rewrite B. destruct (ra_log a); reflexivity.
      + discriminate.
      + intros v [<-|[]]. cbn. destruct (ra_log a); reflexivity.
    - assert (E : exists a, c = CWs a) by (destruct c; try (exfalso; revert W; vm_compute; discriminate); eauto). destruct E as (a & ->).
      destruct (ws_section a) as [s|] eqn:Es; [|discriminate]. unfold start, after in Pe. cbn [with_stream from_shared o_http] in Pe. injection Pe as <-. cbn [o_http o_stream with_stream].
      eexists. exists os, (wa_log a). split; [right; reflexivity|]. split; [exact Sp|]. split; [|split].
      + destruct B as (_ & _ & B & _). apply may_str in B. unfold said. rewrite B. destruct (wa_log a); reflexivity.
      + unfold ws_section in Es. destruct (mode_ok (wa_mode a)); [|discriminate]. injection Es as <-. discriminate.
      + intros v. unfold ws_section in Es. destruct (mode_ok (wa_mode a)); [|discriminate]. injection Es as <-. intros [<-|[]]. cbn. destruct (wa_log a); reflexivity.
  Qed.

  (* the site of a file-server command: what its options come to *)
  Definition site (os : list occ) (l : list saddr) (r : option (list saddr)) (root : text) (robots p404 : option text) (cache : option N) (cors : bool) (h : asection) : Prop :=
    means reads (Or TAddrs usual) (given "listen" os) [VAddrs l] /\ means reads (May TAddrs) (given "listen-ssl" os) (may VAddrs r) /\
    means reads (Or TStr (VStr [])) (given "root" os) [VStr root] /\ said "robots" os robots /\ said "path404" os p404 /\
    forall port rq q, (at_port l r port -> gets h port rq q = match deal_files (files_of (AFile (match root with [] => None | _ => Some root end) [] [] cache robots p404 [] true cors)) (seen rq q) with Ok a => Some a | _ => None end) /\
                      (~ at_port l r port -> gets h port rq q = None).
  Lemma site_of_line : forall argv ws o, asked_start argv (txt "file-server" :: ws) = Some o ->
    exists h os l r root robots p404 cache cors, o_http o = Some h /\ spelled ws (flat_map written os) /\ site os l r root robots p404 cache cors h.
  Proof.
    intros argv ws o H. destruct (start_line _ _ _ _ _ _ _ _ _ _ _ _ _ _ H) as (c & sh & L & Pe). destruct (C171_settings_partial _ _ _ _ _ _ _ _ L) as (W & cn & os & _ & Sp & _ & _ & B).
    assert (E : exists a, c = CFile a) by (destruct c; try (exfalso; revert W; vm_compute; discriminate); eauto). destruct E as (a & ->).
    unfold parse_env in Pe. destruct (sh_daemon sh && sh_forever sh); [discriminate|]. destruct (sh_daemon sh); [discriminate|]. destruct (sh_forever sh); [discriminate|].
    destruct (file_section a) as [s|] eqn:Es; [|discriminate].
    assert (X : exists v, ac_servers s = [v] /\ as_bind v = fa_listen a /\ as_ssl v = match fa_ssl a with Some m => m | None => [] end /\
                as_locs v = [ALoc any_rule (Some (AFile (match fa_root a with [] => None | _ => Some (fa_root a) end) [] [] (fa_cache a) (fa_robots a) (fa_404 a) [] true (fa_cors a))) (fa_headers a) None false]).
    { unfold file_section in Es. destruct (fa_ssl a) as [m|]; [destruct (fa_cert a), (fa_key a); try discriminate Es|]; injection Es as <-; eexists; (split; [reflexivity|]); repeat split; reflexivity. }
    destruct X as (v & X1 & X2 & X3 & X4). destruct (load_one s v _ X1 X4 eq_refl) as (h & v' & E0 & E1 & E2 & E3 & E4 & _).
    unfold start, after in Pe. cbn [with_http from_shared o_http] in Pe. rewrite E0 in Pe. injection Pe as <-.
    destruct B as (B0 & B1 & B2 & _ & _ & _ & _ & B3 & B4 & _). apply may_str in B3. apply may_str in B4.
    exists h, os, (fa_listen a), (fa_ssl a), (fa_root a), (fa_robots a), (fa_404 a), (fa_cache a), (fa_cors a). split; [reflexivity|]. split; [exact Sp|].
    split; [exact B1|]. split; [exact B2|]. split; [exact B0|]. split; [unfold said; rewrite B3; destruct (fa_robots a); reflexivity|]. split; [unfold said; rewrite B4; destruct (fa_404 a); reflexivity|].
    intros port rq q. rewrite (gets_one _ _ _ _ _ _ _ _ _ _ _ _ _ _ _ _ _ _ _ port rq q E1 E2 eq_refl eq_refl). rewrite E3, E4, X2, X3.
    assert (AP : list_contains (fa_listen a) port || list_contains (match fa_ssl a with Some m => m | None => [] end) port = true <-> at_port (fa_listen a) (fa_ssl a) port).
    { rewrite orb_true_iff, !BindProofs.contains_ok. unfold at_port. split.
      - intros [(x & I & P)|(x & I & P)]; exists x; (split; [|exact P]); [now left|right]. destruct (fa_ssl a) as [m|]; [eauto|destruct I].
      - intros (x & [I|(m & -> & I)] & P); [left|right]; eauto. }
    split.
    - intros A. apply AP in A. rewrite A. reflexivity.
    - intros A. destruct (list_contains (fa_listen a) port || _); [destruct A; now apply AP|reflexivity].
  Qed.
  Lemma dir_of : forall os root cache robots p404 cors, means reads (Or TStr (VStr [])) (given "root" os) [VStr root] ->
    serves_dir os cwdt (root_of cwdt (files_of (AFile (match root with [] => None | _ => Some root end) [] [] cache robots p404 [] true cors))).
  Proof.
    intros os root cache robots p404 cors M. destruct M as [(E & [= ->])|(w & v & E & R & [= <-])]; unfold serves_dir; rewrite E.
    - right. auto.
    - assert (T := typed _ _ _ _ _ _ _ R). cbn in T. subst w. destruct root as [|r root]; [right; auto|left]. split; [discriminate|reflexivity].
  Qed.
  Lemma robots_free : forall os robots p, said "robots" os robots -> not_robots os p -> p <> txt "/robots.txt" \/ robots = None.
  Proof. intros os robots p E [H|H]; [|now left]. right. unfold said in E. rewrite H in E. destruct robots; [discriminate|reflexivity]. Qed.

  (* C184: at every port that is listened at, a GET of a path below the directory that the
     options name is answered with what is there: a file with its content; a directory with
     its index.html, or else its index.htm, or else a listing of its entries; if nothing is
     there, with 404 unless --path404 is given; /robots.txt with the text of --robots.  At
     another port no files are served. *)
  Theorem C184_served : forall argv ws o, asked_start argv (txt "file-server" :: ws) = Some o ->
    exists h os l r d, o_http o = Some h /\ spelled ws (flat_map written os) /\
    means reads (Or TAddrs usual) (given "listen" os) [VAddrs l] /\ means reads (May TAddrs) (given "listen-ssl" os) (may VAddrs r) /\ serves_dir os cwdt d /\
    (forall port rq q, ~ at_port l r port -> gets h port rq q = None) /\
    forall port rq q x, at_port l r port -> r_path rq = 47 :: x -> ~ In 37 x -> simple q ->
      (not_robots os (r_path rq) ->
        (forall ns content, file_at fs cwd d (r_path rq) ns content ->
           exists a, gets h port rq q = Some a /\ s_status a = 200 /\ s_body a = BFile ns content None) /\
        (forall dn i content mt, resolve fs cwd (d ++ r_path rq) = Some dn -> is_dir_at fs dn = true ->
           i = txt "index.html" \/ i = txt "index.htm" /\ at_names fs (dn ++ [txt "index.html"]) = None -> at_names fs (dn ++ [i]) = Some (File content mt) ->
           exists a, gets h port rq q = Some a /\ s_status a = 200 /\ s_body a = BFile (dn ++ [i]) content None) /\
        (forall dn es, names_wf fs -> resolve fs cwd (d ++ r_path rq) = Some dn -> at_names fs dn = Some (Dir es) ->
           at_names fs (dn ++ [txt "index.html"]) = None -> at_names fs (dn ++ [txt "index.htm"]) = None ->
           exists a links, gets h port rq q = Some a /\ s_status a = 200 /\ s_body a = BList dn links /\ map snd links = map fst es) /\
        (resolve fs cwd (d ++ r_path rq) = None -> given "path404" os = [] -> exists a, gets h port rq q = Some a /\ s_status a = 404)) /\
      (forall t, given "robots" os = [Some t] -> r_path rq = txt "/robots.txt" -> exists a, gets h port rq q = Some a /\ s_status a = 200 /\ s_body a = BText t).
  Proof.
    intros argv ws o H. destruct (site_of_line _ _ _ H) as (h & os & l & r & root & robots & p404 & cache & cors & E1 & E2 & (L1 & L2 & L3 & L4 & L5 & G)).
    set (f := AFile (match root with [] => None | _ => Some root end) [] [] cache robots p404 [] true cors) in *.
    exists h, os, l, r, (root_of cwdt (files_of f)). split; [exact E1|]. split; [exact E2|]. split; [exact L1|]. split; [exact L2|]. split; [apply dir_of; exact L3|].
    split; [intros port rq q N; apply G; exact N|]. intros port rq q x A P NP (S1 & S2 & S3 & S4 & S5). rewrite P. destruct (G port rq q) as (G1 & _). specialize (G1 A).
    assert (P' : q_path (seen rq q) = 47 :: x) by exact P. assert (NP' : ~ In 37 (q_path (seen rq q))) by (rewrite P'; intros [I|I]; [discriminate I|contradiction]).
    assert (U : unconditional (seen rq q)) by (repeat split; assumption). assert (HD : q_head (seen rq q) = false) by exact S1.
    split.
    - intros NR. assert (RB : q_path (seen rq q) <> txt "/robots.txt" \/ robots = None) by (apply (robots_free os); [exact L4|rewrite P'; exact NR]).
      split; [|split; [|split]].
      + intros ns content (mt & R & F). destruct (cmd_file decode date fdate seek fs cwd cwdt (match root with [] => None | _ => Some root end) cache robots p404 cors _ x ns content mt P' NP' RB U HD R F) as (a & D & T).
        exists a. rewrite G1. unfold f. rewrite D. auto.
      + intros dn i content mt R DD I F. destruct (cmd_index decode date fdate seek fs cwd cwdt (match root with [] => None | _ => Some root end) cache robots p404 cors _ x dn i content mt P' NP' RB U HD R F I DD) as (a & D & T).
        exists a. rewrite G1. unfold f. rewrite D. auto.
      + intros dn es WF R F I1 I2. destruct (cmd_listing decode date fdate seek fs cwd cwdt (match root with [] => None | _ => Some root end) cache robots p404 cors _ x dn es P' NP' RB WF R F I1 I2) as (a & links & D & T).
        exists a, links. rewrite G1. unfold f. rewrite D. auto.
      + intros R NO. unfold said in L5. rewrite NO in L5. destruct p404; [discriminate L5|].
        destruct (cmd_missing decode date fdate seek fs cwd cwdt (match root with [] => None | _ => Some root end) cache robots None cors _ x P' NP' RB R) as (M & _). destruct (M eq_refl) as (a & D & T).
        exists a. rewrite G1. unfold f. rewrite D. auto.
    - intros t RT RP. unfold said in L4. rewrite RT in L4. destruct robots as [t'|]; [injection L4 as <-|discriminate L4].
      destruct (cmd_robots decode date fdate seek fs cwd cwdt (match root with [] => None | _ => Some root end) cache (Some t) p404 cors (seen rq q) t) as (a & D & T); [rewrite P'; exact RP|reflexivity|].
      exists a. rewrite G1. unfold f. rewrite D. auto.
  Qed.
  (* C184: nothing outside of that directory is shown to a request whose decoded path has no
     two dots in a row, except the page of --path404 *)
  Theorem C184_inside_partial : forall argv ws o, asked_start argv (txt "file-server" :: ws) = Some o ->
    exists h os d, o_http o = Some h /\ spelled ws (flat_map written os) /\ serves_dir os cwdt d /\
    forall port rq q a ns rn, gets h port rq q = Some a -> shows a ns -> resolve fs cwd d = Some rn -> ~ occurs (txt "..") (decoded decode (r_path rq)) ->
      below rn ns \/ exists p sfx, given "path404" os = [Some p] /\ In sfx [[]; txt ".gz"; txt ".br"] /\ resolve fs cwd (p ++ sfx) = Some ns.
  Proof.
    intros argv ws o H. destruct (site_of_line _ _ _ H) as (h & os & l & r & root & robots & p404 & cache & cors & E1 & E2 & (L1 & L2 & L3 & L4 & L5 & G)).
    exists h, os. eexists. split; [exact E1|]. split; [exact E2|]. split; [apply (dir_of os root cache robots p404 cors); exact L3|].
    intros port rq q a ns rn GA SH R NO. destruct (G port rq q) as (G1 & G2).
    assert (A : at_port l r port \/ gets h port rq q = None).
    { destruct (existsb (fun x => sa_port x =? port) (l ++ match r with Some m => m | None => [] end)) eqn:X.
      - left. apply existsb_exists in X as (y & I & Ey). apply N.eqb_eq in Ey. exists y. split; [|exact Ey]. apply in_app_or in I as [I|I]; [now left|right]. destruct r; [eauto|destruct I].
      - right. apply G2. intros (y & I & Ey). apply not_true_iff_false in X. apply X. apply existsb_exists. exists y. split; [|apply N.eqb_eq; exact Ey]. apply in_or_app. destruct I as [I|(m & -> & I)]; auto. }
    destruct A as [A|A]; [|congruence]. rewrite (G1 A) in GA. destruct (deal_files _ (seen rq q)) as [z| |] eqn:D; try discriminate GA. injection GA as ->.
    destruct (cmd_inside decode date fdate seek fs cwd cwdt (match root with [] => None | _ => Some root end) cache robots p404 cors _ _ _ _ D SH R NO) as [B|(p & sfx & P4 & X)]; [now left|].
    right. exists p, sfx. unfold said in L5. rewrite P4 in L5. auto.
  Qed.
  (* false of the code: with --path404 what is not there is answered with status 200, and
     the path of the page is not taken from the directory served *)
  Theorem C184_missing_refuted : forall argv ws o, asked_start argv (txt "file-server" :: ws) = Some o ->
    exists h os l r d, o_http o = Some h /\ spelled ws (flat_map written os) /\
    means reads (Or TAddrs usual) (given "listen" os) [VAddrs l] /\ means reads (May TAddrs) (given "listen-ssl" os) (may VAddrs r) /\ serves_dir os cwdt d /\
    forall port rq q x p ns content, at_port l r port -> r_path rq = 47 :: x -> ~ In 37 x -> simple q -> not_robots os (r_path rq) ->
      resolve fs cwd (d ++ r_path rq) = None -> given "path404" os = [Some p] -> file_at fs cwd [] p ns content ->
      exists a, gets h port rq q = Some a /\ s_status a = 200 /\ s_body a = BFile ns content None.
  Proof.
    intros argv ws o H. destruct (site_of_line _ _ _ H) as (h & os & l & r & root & robots & p404 & cache & cors & E1 & E2 & (L1 & L2 & L3 & L4 & L5 & G)).
    exists h, os, l, r. eexists. split; [exact E1|]. split; [exact E2|]. split; [exact L1|]. split; [exact L2|]. split; [apply (dir_of os root cache robots p404 cors); exact L3|].
    intros port rq q x p ns content A P NP (S1 & S2 & S3 & S4 & S5) NR R P4 (mt & R4 & F4). destruct (G port rq q) as (G1 & _). specialize (G1 A). rewrite P in *.
    assert (P' : q_path (seen rq q) = 47 :: x) by exact P. assert (NP' : ~ In 37 (q_path (seen rq q))) by (rewrite P'; intros [I|I]; [discriminate I|contradiction]).
    assert (RB : q_path (seen rq q) <> txt "/robots.txt" \/ robots = None) by (apply (robots_free os); [exact L4|rewrite P'; exact NR]).
    unfold said in L5. rewrite P4 in L5. destruct p404 as [p'|]; [injection L5 as <-|discriminate L5].
    destruct (cmd_missing decode date fdate seek fs cwd cwdt (match root with [] => None | _ => Some root end) cache robots (Some p) cors _ x P' NP' RB R) as (_ & M).
    destruct (M p ns content mt eq_refl) as (a & D & T); [repeat split; assumption|exact S1|exact R4|exact F4|]. exists a. rewrite G1, D. auto.
  Qed.
  (* C119: false of the code: whatever --header says, the answers are the same *)
  Theorem C119_header_refuted : forall root listen ssl cert key dom browse robots p404 cache types cors hs hs' log s s' h h' port rq q,
    file_section (FileArgs root listen ssl cert key dom browse robots p404 cache types cors hs log) = Some s ->
    file_section (FileArgs root listen ssl cert key dom browse robots p404 cache types cors hs' log) = Some s' ->
    load_web s = Some h -> load_web s' = Some h' -> gets h port rq q = gets h' port rq q.
  Proof.
    intros root listen ssl cert key dom browse robots p404 cache types cors hs hs' log s s' h h' port rq q E E' L L'.
    assert (X : forall hs s h, file_section (FileArgs root listen ssl cert key dom browse robots p404 cache types cors hs log) = Some s -> load_web s = Some h ->
      gets h port rq q = if list_contains listen port || list_contains (match ssl with Some m => m | None => [] end) port
        then match deal_files (files_of (AFile (match root with [] => None | _ => Some root end) [] [] cache robots p404 [] true cors)) (seen rq q) with Ok a => Some a | _ => None end else None).
    { clear. intros hs s h E L.
      assert (X : exists v, ac_servers s = [v] /\ as_bind v = listen /\ as_ssl v = match ssl with Some m => m | None => [] end /\
                as_locs v = [ALoc any_rule (Some (AFile (match root with [] => None | _ => Some root end) [] [] cache robots p404 [] true cors)) hs None false]).
      { unfold file_section in E. cbn in E. destruct ssl as [m|]; [destruct cert, key; try discriminate E|]; injection E as <-; eexists; (split; [reflexivity|]); repeat split; reflexivity. }
      destruct X as (v & X1 & X2 & X3 & X4). destruct (load_one s v _ X1 X4 eq_refl) as (h0 & v' & E0 & E1 & E2 & E3 & E4 & _). rewrite L in E0. injection E0 as <-.
      rewrite (gets_one _ _ _ _ _ _ _ _ _ _ _ _ _ _ _ _ _ _ _ port rq q E1 E2 eq_refl eq_refl). rewrite E3, E4, X2, X3. reflexivity. }
    rewrite (X _ _ _ E L), (X _ _ _ E' L'). reflexivity.
  Qed.
End C184.

(* a command line, its site and requests: /srv/www is served at port 8091 *)
Definition fs_demo : node := Dir [
  (txt "etc", Dir [(txt "passwd", File [1; 2; 3] None)]);
  (txt "srv", Dir [(txt "www", Dir [(txt "index.html", File [7; 7] (Some 50)); (txt "sub", Dir [(txt "a.txt", File [9; 9; 9; 9] (Some 60))])])])].
Notation fs_start ws :=
  (asked_start (fun _ => None) ex_sa None None (fun _ => None) (fun _ => None) (fun _ => None) load_web load_streams (fun _ => []) [] (map txt ws)).
Notation fs_gets := (file_gets (fun _ => None) (fun _ => None) (fun _ => []) (fun _ _ _ => true) fs_demo [txt "srv"; txt "www"] (txt "/srv/www")
  (fun _ => None) (fun _ => None) (fun _ p => p) (fun _ _ w => (LimOk, w)) (fun _ r _ => r_host r) (fun _ _ => false) (fun _ _ w => (None, w)) (fun _ _ => false)).
Definition rq_of (p : text) : request := Request p (txt "GET") (txt "http") None None.
Example C184_case :
  match fs_start ["file-server"; "-l"; "0.0.0.0:8091"; "--root"; "/srv/www"; "--robots=none"; "--header"; "+ X-A b"]%string with
  | Some o => match o_http o with
    | Some h =>
      let body p := option_map (fun a => (s_status a, s_body a)) (fs_gets h 8091 (rq_of (txt p)) (get [])) in
      body "/sub/a.txt"%string = Some (200, BFile [txt "srv"; txt "www"; txt "sub"; txt "a.txt"] [9; 9; 9; 9] None) /\
      body "/"%string = Some (200, BFile [txt "srv"; txt "www"; txt "index.html"] [7; 7] None) /\
      body "/sub"%string = Some (200, BList [txt "srv"; txt "www"; txt "sub"] [(txt "/sub/a.txt", txt "a.txt")]) /\
      body "/robots.txt"%string = Some (200, BText (txt "none")) /\
      option_map s_status (fs_gets h 8091 (rq_of (txt "/nothing")) (get [])) = Some 404 /\
      fs_gets h 80 (rq_of (txt "/sub/a.txt")) (get []) = None
    | None => False end
  | None => False end.
Proof. vm_compute. repeat split; reflexivity. Qed.
Example C184_case_404 :
  match fs_start ["file-server"; "-l"; "0.0.0.0:8091"; "--path404=/etc/passwd"]%string with
  | Some o => match o_http o with
    | Some h => option_map (fun a => (s_status a, s_body a)) (fs_gets h 8091 (rq_of (txt "/nothing")) (get [])) = Some (200, BFile [txt "etc"; txt "passwd"] [1; 2; 3] None)
    | None => False end
  | None => False end.
Proof. vm_compute. reflexivity. Qed.
Print Assumptions C178_loader.
Print Assumptions C178_access_log.
Print Assumptions C184_served.
Print Assumptions C184_inside_partial.
Print Assumptions C184_missing_refuted.
Print Assumptions C119_header_refuted.
