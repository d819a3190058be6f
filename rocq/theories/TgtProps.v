(* Where requests, stream connections and websockets are sent, time limits and answers:
   C123, C125 to C130. *)
From Coq Require Import String.
From Verif Require Import Base Text TextOps ConfModel AddrModel HealthModel HealthSpec HealthProofs TgtModel TgtSpec TgtProofs.
From Verif Require RouteModel RouteProps ArgModel.
Open Scope N_scope.

Section Props.
  Context (show_ip : ipaddr -> text) (connect_url : url -> option text) (resolve : text -> option (list saddr)).
  Let http_target := http_target show_ip connect_url.
  Let stream_target := stream_target connect_url resolve.

  (* ---- C125 ---- *)
  (* C125, full statement: a request of a location with proxy_url is forwarded to the
     member chosen among the upstream its host names, or to that host itself if there is no
     such upstream.  A chosen member is connected to under its own address and port, ... *)
  Theorem C125_member_partial : forall u us asked d a sch t tls, u_domain u = Some d -> meant us d (Ok (Some a)) -> speaks u asked sch ->
    http_target u us asked = Ok (Target t tls) <->
    connect_url (Url sch (Some (show_ip (sa_ip a))) (Some (sa_port a))) = Some t /\ (tls = false <-> sch = Http).
  Proof.
    intros u us asked d a sch t tls D M K. unfold http_target, TgtModel.http_target. rewrite D, (meant_addr _ _ _ M).
    cbn [at_member]. rewrite (speaks_ok _ _ _ K). destruct (connect_url _) as [x|].
    2:{ split; [discriminate|intros [X _]; discriminate]. }
    cbn [u_scheme]. split.
    - intros [= -> <-]. split; [reflexivity|]. destruct sch; split; congruence.
    - intros [[= ->] X]. destruct sch, tls; try reflexivity; exfalso; destruct X as [X1 X2];
        solve [specialize (X1 eq_refl); discriminate | specialize (X2 eq_refl); discriminate].
  Qed.
  (* ... and another host is connected to as the URL says. *)
  Theorem C125_host_partial : forall u us asked d sch t tls, u_domain u = Some d -> unknown us d -> speaks u asked sch ->
    http_target u us asked = Ok (Target t tls) <->
    connect_url (Url sch (Some d) (u_port u)) = Some t /\ (tls = false <-> sch = Http).
  Proof.
    intros u us asked d sch t tls D M K. unfold http_target, TgtModel.http_target. rewrite D, (unknown_addr _ _ M).
    cbn [at_member]. destruct u as [us0 ud up]. cbn in D. subst ud. pose proof (speaks_ok _ _ _ K (Some d) up) as Q. cbn [u_scheme] in Q. rewrite Q. cbn [u_port].
    destruct (connect_url _) as [x|]; [|split; [discriminate|intros [X _]; discriminate]].
    cbn [u_scheme]. split.
    - intros [= -> <-]. split; [reflexivity|]. destruct sch; split; congruence.
    - intros [[= ->] X]. destruct sch, tls; try reflexivity; exfalso; destruct X as [X1 X2];
        solve [specialize (X1 eq_refl); discriminate | specialize (X2 eq_refl); discriminate].
  Qed.
  (* But when the upstream has no choice to offer, the request goes to whatever host has
     the upstream's name ... *)
  Theorem C125_name_lookup_refuted : forall u us asked d sch t, u_domain u = Some d -> meant us d (Ok None) -> speaks u asked sch ->
    connect_url (Url sch (Some d) (u_port u)) = Some t ->
    exists tls, http_target u us asked = Ok (Target t tls) /\ (tls = false <-> sch = Http).
  Proof.
    intros u us asked d sch t D M K C. unfold http_target, TgtModel.http_target. rewrite D, (meant_addr _ _ _ M).
    cbn [at_member]. destruct u as [us0 ud up]. cbn in D. subst ud. pose proof (speaks_ok _ _ _ K (Some d) up) as Q. cbn [u_scheme] in Q. rewrite Q.
    cbn [u_port] in C. rewrite C. eexists. split; [reflexivity|]. cbn [u_scheme]. destruct sch; split; congruence.
  Qed.
  (* ... and a URL without a host closes the connection of the client. *)
  Theorem C125_no_host_refuted : forall u us asked, u_domain u = None -> http_target u us asked = Panic.
  Proof. intros u us asked D. unfold http_target, TgtModel.http_target. rewrite D. reflexivity. Qed.

  (* ---- C126 ---- *)
  (* C126, full statement: a stream connection goes to a member chosen among the upstream
     its server names by proxy_url, or by up_name without one.  A URL without a port does, ... *)
  Theorem C126_member_partial : forall own u us up d a, u_domain u = Some d -> meant us d (Ok (Some a)) -> u_port u = None ->
    exists dom, stream_target own (Some u) us up = Ok (Some a, dom) /\ told_name own d dom.
  Proof.
    intros own u us up d a D M P. unfold stream_target, TgtModel.stream_target. rewrite D, P. cbn [rbind]. rewrite (meant_addr _ _ _ M). cbn [rbind with_port].
    eexists. split; [reflexivity|]. destruct own; reflexivity.
  Qed.
  Theorem C126_up_name : forall own us up c, meant us up (Ok c) ->
    stream_target own None us up = Ok (c, own).
  Proof.
    intros own us up c M. unfold stream_target, TgtModel.stream_target. cbn [rbind]. rewrite (meant_addr _ _ _ M). cbn [rbind]. destruct own; reflexivity.
  Qed.
  (* ... another host is the first address its name resolves to, ... *)
  Theorem C126_host : forall own u us up d t x l, u_domain u = Some d -> unknown us d -> connect_url u = Some t -> resolve t = Some (x :: l) ->
    exists dom, stream_target own (Some u) us up = Ok (Some x, dom) /\ told_name own d dom.
  Proof.
    intros own u us up d t x l D M C R. unfold stream_target, TgtModel.stream_target. rewrite D. cbn [rbind]. rewrite (unknown_addr _ _ M). cbn [rbind with_port].
    rewrite C, R. eexists. split; [reflexivity|]. destruct own; reflexivity.
  Qed.
  (* ... but a port in the URL replaces the port of the member, so that the connection
     goes to an address that no member has (an HTTP request ignores that port, C125) ... *)
  Theorem C126_port_refuted : forall own u us up d a p members, u_domain u = Some d -> meant us d (Ok (Some a)) -> u_port u = Some p ->
    (forall m, In m members -> sa_port m <> p) ->
    exists to dom, stream_target own (Some u) us up = Ok (Some to, dom) /\ sa_ip to = sa_ip a /\ sa_port to = p /\ ~ In to members /\ told_name own d dom.
  Proof.
    intros own u us up d a p members D M P H. unfold stream_target, TgtModel.stream_target. rewrite D, P. cbn [rbind]. rewrite (meant_addr _ _ _ M).
    cbn [rbind with_port]. do 2 eexists. split; [reflexivity|]. split; [reflexivity|]. split; [reflexivity|].
    split; [intros I; apply (H _ I); reflexivity|]. destruct own; reflexivity.
  Qed.
  (* ... and without a choice the name of the upstream is looked up as a host; if there is
     none of that name the connection fails, whatever up_name says. *)
  Theorem C126_lookup_refuted : forall own u us up d t, u_domain u = Some d -> meant us d (Ok None) -> connect_url u = Some t ->
    (resolve t = None -> stream_target own (Some u) us up = Err tt) /\
    (forall x l, resolve t = Some (x :: l) -> exists dom, stream_target own (Some u) us up = Ok (Some x, dom) /\ told_name own d dom).
  Proof.
    intros own u us up d t D M C. unfold stream_target, TgtModel.stream_target. rewrite D. cbn [rbind]. rewrite (meant_addr _ _ _ M). cbn [rbind with_port].
    assert (E : with_port (u_port u) None = None) by (unfold with_port; destruct (u_port u); reflexivity). rewrite ?E, C. split.
    - intros R. rewrite R. reflexivity.
    - intros x l R. rewrite R. eexists. split; [reflexivity|]. destruct own; reflexivity.
  Qed.

  (* ---- C127 ---- *)
  (* C127, full statement: a websocket that is accepted is relayed to its backend.  With
     a backend in reach, everything taken from one side arrives at the other, the same
     frames in the same order, except at most ten that wait at any moment: towards the
     client always, towards the backend until its connection ends. *)
  Theorem C127_relay_partial : forall es s os d, wrun (WSt true [] [] false) es = (s, os) -> (d = Backend -> ~ In WGone es) ->
    exists late, Forall2 same_frame (taken (other d) os) (sent d os ++ late) /\ (length late <= 10)%nat /\ late = waiting d s.
  Proof.
    intros es s os d E H. exists (waiting d s). split; [|split; [|reflexivity]].
    - assert (A : map passed_on (taken (other d) os) = sent d os ++ waiting d s).
      { destruct d; cbn [other].
        - pose proof (wrun_client es (WSt true [] [] false) eq_refl) as A. rewrite E in A. exact A.
        - destruct (wrun_backend es (WSt true [] [] false) eq_refl eq_refl (H eq_refl)) as [A _]. rewrite E in A. exact A. }
      rewrite <- A. clear. induction (taken (other d) os) as [|c l IH]; [constructor|]. constructor; [apply passed_same|exact IH].
    - pose proof (wrun_bound es (WSt true [] [] false) d) as B. rewrite E in B. apply B. cbn. lia.
  Qed.
  (* what waits is sent when the side takes it *)
  Theorem C127_drains : forall es s os d m l, wrun (WSt true [] [] false) es = (s, os) -> (d = Backend -> ~ In WGone es) ->
    waiting d s = m :: l -> exists s1, wstep s (WTake d) = (s1, [WSent d m]) /\ waiting d s1 = l.
  Proof.
    intros es s os d m l E H W. destruct s as [r u dn g]. destruct d; cbn in W; cbn [wstep w_down w_up w_gone].
    - rewrite W. eexists. split; reflexivity.
    - destruct (wrun_backend es (WSt true [] [] false) eq_refl eq_refl (H eq_refl)) as [_ G]. rewrite E in G. cbn in G. rewrite G, W. eexists. split; reflexivity.
  Qed.
  (* ... and while fewer than ten wait, the next frame of the other side is taken at once: *)
  Theorem C127_takes : forall es s os d c, wrun (WSt true [] [] false) es = (s, os) -> ~ In WGone es -> (length (waiting d s) < 10)%nat ->
    exists s1 m, wstep s (WCall (other d) c) = (s1, [WDone (other d) c]) /\ same_frame c m /\ waiting d s1 = waiting d s ++ [m].
  Proof.
    intros es s os d c E H W.
    destruct (wrun_backend es (WSt true [] [] false) eq_refl eq_refl H) as [_ G]. rewrite E in G. cbn [fst] in G.
    assert (RR : forall es s, w_relay (fst (wrun s es)) = w_relay s).
    { clear. induction es as [|e es IH]; intro s; [reflexivity|]. cbn [wrun]. assert (A := wstep_relay s e). destruct (wstep s e) as [s1 o]. specialize (IH s1). destruct (wrun s1 es) as [s2 o2]. cbn [fst] in *. congruence. }
    assert (R := RR es (WSt true [] [] false)). rewrite E in R. cbn [fst w_relay] in R.
    destruct s as [r u dn g]. cbn in R, G. subst r g. apply Nat.ltb_lt in W.
    destruct d; cbn [waiting w_up w_down] in W; cbn [other wstep w_relay w_gone negb w_up w_down orb]; change (length ?x <? chan_cap)%nat with (length x <? 10)%nat; rewrite W; do 2 eexists; (split; [reflexivity|]); (split; [|reflexivity]).
    all: apply passed_same.
  Qed.
  (* But a location whose proxy_url is a host and not an upstream accepts websockets too,
     and every frame of the client is taken and dropped, without an error ... *)
  Theorem C127_deaf_refuted : forall plain u us d reach, u_domain u = Some d -> unknown us d ->
    ws_open (Some true) (ws_url show_ip plain (Some u) us) reach = Ok (Opened false) /\
    forall es os, os = snd (wrun (WSt false [] [] false) es) ->
      taken Client os = arrived Client es /\ sent Backend os = [] /\ sent Client os = [] /\ forall c, ~ In (WFailed c) os.
  Proof.
    intros plain u us d reach D U. split.
    - unfold ws_url. rewrite D, (unknown_addr _ _ U). reflexivity.
    - intros es os ->. destruct (wrun_deaf es (WSt false [] [] false) eq_refl eq_refl eq_refl) as (A & B & C & F). repeat split; assumption.
  Qed.
  (* with an upstream the websocket goes to the chosen member, under the name of the
     upstream, and is refused if that member cannot be reached *)
  Theorem C127_member : forall plain u us d a reach, u_domain u = Some d -> meant us d (Ok (Some a)) ->
    ws_open (Some true) (ws_url show_ip plain (Some u) us) reach =
    Ok (if reach (Url (u_scheme u) (Some (show_ip (sa_ip a))) (Some (sa_port a))) d then Opened true else Refused).
  Proof. intros plain u us d a reach D M. unfold ws_url. rewrite D, (meant_addr _ _ _ M). reflexivity. Qed.
  (* only locations that are configured for websockets accept them *)
  Theorem C127_configured : forall loc back reach x, ws_open loc back reach = Ok (Opened x) -> loc = Some true.
  Proof. intros [[]|] back reach x H; [reflexivity|discriminate|discriminate]. Qed.
  (* once the backend's connection has ended the client is not left in the dark: every
     further frame of it, except for a close, ends its connection *)
  Theorem C127_told : forall es s os c es2, wrun (WSt true [] [] false) es = (s, os) -> In WGone es -> (forall r, c <> OnClose r) ->
    In (WFailed c) (snd (wrun (WSt true [] [] false) (es ++ WCall Client c :: es2))).
  Proof.
    intros es s os c es2 E G C.
    assert (I : forall es s, w_relay s = true -> In WGone es \/ w_gone s = true -> w_relay (fst (wrun s es)) = true /\ w_gone (fst (wrun s es)) = true).
    { clear. induction es as [|e es IH]; intros s R G; [destruct G as [[]|G]; split; assumption|]. cbn [wrun].
      destruct (wstep s e) as [s1 o] eqn:E. specialize (IH s1). destruct (wrun s1 es) as [s2 o2]. cbn [fst] in *.
      assert (R1 : w_relay s1 = true /\ (w_gone s = true -> w_gone s1 = true) /\ (e = WGone -> w_gone s1 = true)).
      { destruct s as [r u d g]. cbn in R. subst r. destruct e as [[] c|[]|]; cbn [wstep w_relay w_up w_down w_gone negb orb] in E.
        - destruct g; [injection E as <- _; repeat split; discriminate|]. destruct (length u <? chan_cap)%nat; injection E as <- _; repeat split; discriminate.
        - destruct g; [injection E as <- _; repeat split; discriminate|]. destruct (length d <? chan_cap)%nat; injection E as <- _; repeat split; discriminate.
        - destruct d; injection E as <- _; repeat split; try discriminate; intros X; exact X.
        - destruct g; [injection E as <- _; repeat split; discriminate|]. destruct u; injection E as <- _; repeat split; discriminate.
        - injection E as <- _. repeat split. }
      destruct R1 as (R1 & G1 & G2). apply IH; [exact R1|]. destruct G as [[->|G]|G]; [right; apply G2; reflexivity|left; exact G|right; apply G1; exact G]. }
    rewrite wrun_app, E. destruct (I es (WSt true [] [] false) eq_refl (or_introl G)) as [R W]. rewrite E in R, W. cbn [fst] in R, W.
    cbn [wrun wstep]. rewrite R, W. cbn [negb].
    destruct (wrun s es2) as [s3 o3]. destruct c as [r| | |]; [destruct (C r eq_refl)| | |]; cbn [snd]; apply in_app_iff; right; left; reflexivity.
  Qed.
  (* ... and what has been taken but not sent when the backend connection ends is lost. *)
  Theorem C127_lost_refuted : forall es s os es2, wrun (WSt true [] [] false) es = (s, os) -> ~ In WGone es -> waiting Backend s <> [] ->
    let all := snd (wrun (WSt true [] [] false) (es ++ WGone :: es2)) in
    sent Backend all = sent Backend os /\ (length (sent Backend all) < length (taken Client os))%nat.
  Proof.
    intros es s os es2 E H W all.
    assert (A : sent Backend all = sent Backend os).
    { unfold all. rewrite wrun_app, E. cbn [wrun wstep].
      destruct (wrun_gone es2 (WSt (w_relay s) [] (w_down s) true) eq_refl) as [A _].
      destruct (wrun (WSt (w_relay s) [] (w_down s) true) es2) as [s3 os3]. cbn [snd app] in *. rewrite sent_app, A. apply app_nil_r. }
    split; [exact A|]. rewrite A. destruct (wrun_backend es (WSt true [] [] false) eq_refl eq_refl H) as [B _]. rewrite E in B. cbn [waiting w_up app fst snd] in B.
    apply (f_equal (@length wmsg)) in B. rewrite map_length, app_length in B. destruct (w_up s) as [|m l] eqn:Eu.
    - exfalso. apply W. exact Eu.
    - cbn [waiting] in *. rewrite ?Eu in B. cbn [length] in B. lia.
  Qed.

  (* ---- C123 ---- *)
  (* C123: the location of wmproxy reverse-proxy (C123_single) forwards every request to
     the given address, over TLS exactly with --tls, as long as the latest result for this
     address is not between thirty and sixty seconds old (an active check each second
     renews it).  name_of and sa: the text form of addresses. *)
  Theorem C123_backend_partial : forall (name_of : saddr -> addr) (sa : addr -> saddr) a draw now os asked t tls l,
    (forall x, sa (name_of x) = x) ->
    (exists sv, In sv (ArgModel.ac_servers (ArgModel.reverse_section a)) /\ In l (ArgModel.as_locs sv)) ->
    (forall c t l, results (name_of (ArgModel.ra_to a)) os = (c, t) :: l -> now - t <= 30 * second \/ 60 * second < now - t) ->
    forall secure host, ArgModel.al_url l = Some (secure, host) ->
    http_target (Url (if secure then OtherScheme (txt "https") else Http) (Some host) None)
      (now_of sa draw now (hrun (hcheck_new 60 3 2) os)
         (map (fun u => (ArgModel.au_name u, map (fun m => new_simple (name_of m)) (ArgModel.au_members u))) (ArgModel.ac_ups (ArgModel.reverse_section a))))
      asked = Ok (Target t tls) <->
    connect_url (Url (if ArgModel.ra_tls a then OtherScheme (txt "https") else Http)
                     (Some (show_ip (sa_ip (ArgModel.ra_to a)))) (Some (sa_port (ArgModel.ra_to a)))) = Some t /\ tls = ArgModel.ra_tls a.
  Proof.
    intros name_of sa a draw now os asked t tls l S (sv & Hs & Hl) G secure host Hu.
    destruct Hs as [<-|[]]. destruct Hl as [<-|[]]. cbn [ArgModel.al_url] in Hu. injection Hu as <- <-.
    change (map _ _) with [(txt "server", [new_simple (name_of (ArgModel.ra_to a))])].
    unfold now_of. cbn [map fst snd]. rewrite (simple_choice _ _ _ _ (simple_agrees os _ now G)). cbn [option_map]. rewrite S.
    rewrite (C125_member_partial _ _ _ (txt "server") (ArgModel.ra_to a) (if ArgModel.ra_tls a then OtherScheme (txt "https") else Http)).
    - destruct (ArgModel.ra_tls a), tls; split; intros [A B]; (split; [exact A|]);
        solve [reflexivity | discriminate | split; discriminate | split; reflexivity | destruct B as [B1 B2]; specialize (B1 eq_refl); discriminate
              | destruct B as [B1 B2]; specialize (B2 eq_refl); discriminate].
    - reflexivity.
    - exists [], (txt "server"), []. split; [reflexivity|]. right. repeat split; [discriminate|intros []].
    - left. split; [reflexivity|]. destruct (ArgModel.ra_tls a); discriminate.
  Qed.
  (* Without results for half a minute (the clock of a suspended machine, say) after three
     failures, no member is chosen and the host of the name server is looked up. *)
  Theorem C123_lookup_refuted : forall (sa : addr -> saddr) draw to,
    let os := [HProbe to second 0; HFail to 1; HFail to 2; HFail to 3] in
    let now := 40 * second in
    forall asked t, connect_url (Url Http (Some (txt "server")) None) = Some t ->
    http_target (Url Http (Some (txt "server")) None)
      (now_of sa draw now (hrun (hcheck_new 60 3 2) os) [(txt "server", [new_simple to])]) asked = Ok (Target t false).
  Proof.
    intros sa draw to os now asked t C.
    assert (Hh : c_map (hrun (hcheck_new 60 3 2) os) = [(to, HRec (Some 0) 3 (30 * second) 3 0 true)]).
    { change (hrun (hcheck_new 60 3 2) os) with
        (add_fall_down to 3 (add_fall_down to 2 (add_fall_down to 1 (HCheck 60 3 2 [(to, HRec (Some 0) 0 (30 * second) 0 0 false)])))).
      rewrite !fall_single. reflexivity. }
    assert (A : get_server_addr draw now (hrun (hcheck_new 60 3 2) os) [new_simple to] = Ok None).
    { unfold get_server_addr, calc_sum_weight. cbn [sums s_addr new_simple]. unfold is_fall_down. rewrite Hh. cbn [lookup]. rewrite leqb_refl.
      change (30 * second <? now - 3) with true. cbn [h_timeout h_record]. change (30 * second <? now - 3) with true. cbv iota.
      change (Ok (E := unit) (pick (live now (hrun (hcheck_new 60 3 2) os)) [new_simple to] (draw mod 100)) = Ok None).
      cbn [pick]. unfold live, check_fall_down. cbn [new_simple s_addr s_timeout s_fall s_rise]. rewrite Hh. cbn [lookup]. rewrite leqb_refl. reflexivity. }
    unfold now_of. cbn [map fst snd]. rewrite A. cbn [option_map].
    unfold http_target, TgtModel.http_target. cbn [u_domain]. cbn [get_upstream_addr].
    rewrite leqb_refl. cbn [at_member]. unfold with_scheme. cbn [u_scheme]. rewrite C. reflexivity.
  Qed.
End Props.
Print Assumptions C125_member_partial.
Print Assumptions C125_host_partial.
Print Assumptions C125_name_lookup_refuted.
Print Assumptions C125_no_host_refuted.
Print Assumptions C126_member_partial.
Print Assumptions C126_up_name.
Print Assumptions C126_host.
Print Assumptions C126_port_refuted.
Print Assumptions C126_lookup_refuted.
Print Assumptions C127_relay_partial.
Print Assumptions C127_drains.
Print Assumptions C127_takes.
Print Assumptions C127_deaf_refuted.
Print Assumptions C127_lost_refuted.
Print Assumptions C127_member.
Print Assumptions C127_configured.
Print Assumptions C127_told.
Print Assumptions C123_backend_partial.
Print Assumptions C123_lookup_refuted.

(* ---- concrete cases for C123 and C125 to C127 ---- *)
Definition ten1 := V4 0x0a000001.
Definition ten2 := V4 0x0a000002.
(* an illustration of the parameters: one letter per address, host:port *)
Definition ip_name (i : ipaddr) : text := match i with V4 n => [97 + n mod 16] | V6 _ => [122] end.
Definition host_port (u : url) : option text :=
  match u_domain u with Some d => Some (d ++ match u_port u with Some p => [58; p] | None => [] end) | None => None end.
Definition member1 := [98]. Definition member2 := [99].
Definition addr_of (a : addr) : saddr := if leqb a [98] then SAddr ten1 81 else SAddr ten2 82.
Definition pool : list (text * list server) :=
  [(txt "pool", [Server member1 100 (30 * second) 2 2; Server member2 100 (30 * second) 2 2])].
Definition quiet := hrun (hcheck_new 60 3 2) [].
Definition failed2 := hrun (hcheck_new 60 3 2) [HFail member1 0; HFail member1 1].
Example C125_demo :
  meant (now_of addr_of 7 2 quiet pool) (txt "pool") (Ok (Some (SAddr ten1 81))) /\
  http_target ip_name host_port (Url NoScheme (Some (txt "pool")) (Some 443)) (now_of addr_of 7 2 quiet pool) Http = Ok (Target [98; 58; 81] false) /\
  speaks (Url NoScheme (Some (txt "pool")) (Some 443)) Http Http /\
  unknown (now_of addr_of 7 2 quiet pool) (txt "other") /\
  meant (now_of addr_of 150 2 failed2 pool) (txt "pool") (Ok None) /\
  http_target ip_name host_port (Url Http (Some (txt "pool")) None) (now_of addr_of 150 2 failed2 pool) Http = Ok (Target (txt "pool") false).
Proof.
  split; [exists [], (txt "pool"), []; split; [reflexivity|right; repeat split; [discriminate|intros []]]|].
  split; [reflexivity|]. split; [right; split; reflexivity|].
  split; [split; [intros [X|[]]; discriminate|discriminate]|].
  split; [exists [], (txt "pool"), []; split; [reflexivity|right; repeat split; [discriminate|intros []]]|]. reflexivity.
Qed.
Example C126_demo :
  let us := now_of addr_of 7 2 quiet pool in
  stream_target host_port (fun _ => None) None (Some (Url Http (Some (txt "pool")) None)) us (txt "x") = Ok (Some (SAddr ten1 81), Some (txt "pool")) /\
  stream_target host_port (fun _ => None) None (Some (Url Http (Some (txt "pool")) (Some 9))) us (txt "x") = Ok (Some (SAddr ten1 9), Some (txt "pool")) /\
  stream_target host_port (fun _ => None) None None us (txt "pool") = Ok (Some (SAddr ten1 81), None) /\
  stream_target host_port (fun _ => Some [SAddr ten2 5]) (Some (txt "d")) (Some (Url Http (Some (txt "h")) (Some 5))) us (txt "pool") = Ok (Some (SAddr ten2 5), Some (txt "d")) /\
  (forall m, In m [SAddr ten1 81; SAddr ten2 82] -> sa_port m <> 9).
Proof.
  cbn zeta. split; [reflexivity|]. split; [reflexivity|]. split; [reflexivity|]. split; [reflexivity|].
  intros m [<-|[<-|[]]]; discriminate.
Qed.
Definition chat := [WCall Client (OnMessage false [104]); WCall Backend (OnPing [1]); WTake Backend; WCall Client (OnPong [1]); WTake Client; WCall Client (OnClose None)].
Example C127_demo : exists s os, wrun (WSt true [] [] false) chat = (s, os) /\ ~ In WGone chat /\
  sent Backend os = [MData false [104]] /\ waiting Backend s = [MPong [1]; MClose None] /\ sent Client os = [MPing [1]] /\
  taken Client os = arrived Client chat.
Proof. do 2 eexists. split; [reflexivity|]. split; [intros [X|[X|[X|[X|[X|[X|[]]]]]]]; discriminate|]. repeat split. Qed.
(* the window of C123 is not empty: a record that is kept up to date *)
Example C123_backend_demo : forall c t l,
  results [98] [HProbe [98] second 0; HFail [98] second; HFail [98] (2 * second); HFail [98] (3 * second)] = (c, t) :: l ->
  4 * second - t <= 30 * second \/ 60 * second < 4 * second - t.
Proof. intros c t l [= <- <- <-]. left. discriminate. Qed.

(* ---- C128 ---- *)
(* C128, full statement: the time limits of a server apply to its connections.  Each
   setting ends up in its place, and an absent setting sets no limit ... *)
Definition in_force (o : option layer) (f : layer -> option N) : option N := match o with Some y => f y | None => None end.
Theorem C128_settings : forall l,
  in_force (client_layer l) y_read = client_read l /\ in_force (client_layer l) y_write = client_write l /\
  in_force (client_layer l) y_total = client_total l /\ in_force (client_layer l) y_keep = client_keep l /\
  in_force (client_layer l) y_connect = None /\
  in_force (proxy_layer l) y_connect = proxy_connect l /\ in_force (proxy_layer l) y_read = proxy_read l /\
  in_force (proxy_layer l) y_write = proxy_write l /\ in_force (proxy_layer l) y_total = proxy_total l /\
  in_force (proxy_layer l) y_keep = None.
Proof.
  intros [a b c d e f g h]. unfold client_layer, proxy_layer. cbn [client_read client_write client_total client_keep proxy_connect proxy_read proxy_write proxy_total].
  destruct a, b, c, d; (split; [reflexivity|]; split; [reflexivity|]; split; [reflexivity|]; split; [reflexivity|]; split; [reflexivity|]);
  destruct e, f, g, h; repeat split.
Qed.
(* ... but a client connection has those of the first server of its listener, whatever
   server the requests are for. *)
Theorem C128_first_refuted : forall s rest sv o, In sv (s :: rest) -> connection_layer (s :: rest) = Ok o ->
  o = client_layer s /\
  (client_read sv <> client_read s -> in_force o y_read <> client_read sv) /\
  (client_write sv <> client_write s -> in_force o y_write <> client_write sv) /\
  (client_total sv <> client_total s -> in_force o y_total <> client_total sv) /\
  (client_keep sv <> client_keep s -> in_force o y_keep <> client_keep sv).
Proof.
  intros s rest sv o I [= <-]. split; [reflexivity|]. destruct (C128_settings s) as (A & B & C & D & _). rewrite A, B, C, D. repeat split; congruence.
Qed.
Theorem C128_first_partial : forall s rest, exists o, connection_layer (s :: rest) = Ok o /\
  in_force o y_read = client_read s /\ in_force o y_write = client_write s /\ in_force o y_total = client_total s /\ in_force o y_keep = client_keep s.
Proof. intros s rest. exists (client_layer s). split; [reflexivity|]. destruct (C128_settings s) as (A & B & C & D & _). auto. Qed.
Print Assumptions C128_settings.
Print Assumptions C128_first_refuted.
Print Assumptions C128_first_partial.
Example C128_demo :
  let fast := Limits (Some 5) None None None None None None None in
  let slow := Limits (Some 60) None (Some 90) (Some 75) None None None None in
  connection_layer [fast; slow] = Ok (Some (Layer None (Some 5) None None None)) /\ In slow [fast; slow] /\ client_read slow <> client_read fast.
Proof. cbn zeta. split; [reflexivity|]. split; [right; left; reflexivity|discriminate]. Qed.

(* ---- C129 ---- *)
(* C129, full statement: a backend that cannot be connected to within
   proxy_connect_timeout is recorded as failed and the next address is tried.  As long as
   every address answers, with or without a limit, connecting is what C53 describes; ... *)
Definition accepts (f : addr -> fate) (a : addr) : bool := match f a with Accepts => true | _ => false end.
Theorem C129_refused_partial : forall limited f t addrs h, (forall a, In a addrs -> f a <> Silent) ->
  connect_timeout limited f t addrs h =
  (match fst (connect (accepts f) t addrs h) with Some a => Connected a | None => Failed end, snd (connect (accepts f) t addrs h)).
Proof.
  intros limited f t addrs h H. unfold connect_timeout.
  assert (A : connect_wait f t addrs h = (match fst (connect (accepts f) t addrs h) with Some a => Connected a | None => Failed end, snd (connect (accepts f) t addrs h))).
  { revert h H. induction addrs as [|a l IH]; intros h H; [reflexivity|]. cbn [connect_wait]. rewrite connect_cons.
    assert (Hl : forall b, In b l -> f b <> Silent) by (intros b X; apply H; right; exact X).
    destruct (is_fall_down a t h); [apply IH; exact Hl|]. unfold accepts at 1 3. specialize (H a (or_introl eq_refl)).
    destruct (f a); [reflexivity|apply IH; exact Hl|contradiction]. }
  rewrite A. destruct (fst (connect (accepts f) t addrs h)); reflexivity.
Qed.
(* ... but one that does not answer is not recorded, after any number of attempts, so it
   never counts as failed ... *)
Theorem C129_silent_refuted : forall f addrs ts h, (forall a, In a addrs -> f a = Silent) ->
  attempts true f ts addrs h = h /\ (forall t a, fst (connect_timeout true f t addrs h) <> Connected a).
Proof.
  intros f addrs ts h H.
  assert (A : forall t, snd (connect_timeout true f t addrs h) = h /\ forall a, fst (connect_timeout true f t addrs h) <> Connected a).
  { intros t. destruct (silent_first f t addrs h H) as [A B]. unfold connect_timeout.
    destruct (connect_wait f t addrs h) as [[a| |] h']; cbn [fst snd] in *; split; try exact A; discriminate || (intros b; apply B). }
  split; [|intros t a; apply A]. induction ts as [|t ts IH]; [reflexivity|]. cbn [attempts]. destruct (A t) as [-> _]. exact IH.
Qed.
(* ... and an address behind it is not tried, though it would accept. *)
Theorem C129_next_refuted : forall f t a rest h, f a = Silent -> is_fall_down a t h = false ->
  connect_timeout true f t (a :: rest) h = (Failed, h) /\ connect_timeout false f t (a :: rest) h = (Waiting, h).
Proof. intros f t a rest h F D. unfold connect_timeout. cbn [connect_wait]. rewrite D, F. split; reflexivity. Qed.
Print Assumptions C129_refused_partial.
Print Assumptions C129_silent_refuted.
Print Assumptions C129_next_refuted.
Example C129_demo :
  let f := fun a => if leqb a [1] then Silent else if leqb a [2] then Refuses else Accepts in
  fst (connect_timeout true f 5 [[2]; [3]] quiet) = Connected [3] /\
  is_fall_down [2] 5 (attempts true f [1; 2; 3] [[2]] quiet) = true /\
  is_fall_down [1] 5 (attempts true f [1; 2; 3] [[1]; [3]] quiet) = false /\
  fst (connect_timeout true f 5 [[1]; [3]] quiet) = Failed.
Proof. vm_compute. repeat split. Qed.

(* ---- C130 ---- *)
(* C130: every request that reaches a site is answered, once: with the status of the
   location or of the rules that turned it away, naming the server; or with 500, or 408
   if the backend let a time limit run out, if that failed.  why: the failure. *)
Section Answers.
  Context {W : Type} (regex : text -> option (text -> bool)) (parse_ip : text -> option ipaddr)
          (fmt : RouteModel.request -> text -> text)
          (limit : lreq -> text -> W -> RouteModel.limres * W)
          (serve : RouteModel.location -> RouteModel.request -> W -> res unit (N * bool) * W)
          (rehost : RouteModel.location -> RouteModel.request -> W -> option text)
          (closed : RouteModel.key -> W -> bool)
          (reuse : RouteModel.key -> RouteModel.request -> W -> option (res unit N) * W)
          (same_key : RouteModel.key -> RouteModel.key -> bool).
  Let operate := RouteModel.operate regex parse_ip fmt limit serve rehost closed reuse same_key.
  Definition with_reason (why : failure) (a : res unit RouteModel.answer) : res failure N :=
    match a with Ok x => Ok (RouteModel.a_status x) | Err _ => Err why | Panic => Panic end.
  Lemma handle_calm : (forall l r w, fst (serve l r w) <> Panic) -> (forall k r w, fst (reuse k r w) <> Some Panic) ->
    forall now l r s, snd (RouteModel.handle serve rehost closed reuse same_key now l r s) <> Panic.
  Proof.
    intros C1 C2 now l r s. unfold RouteModel.handle.
    destruct (RouteModel.cached _ _ _).
    - destruct (closed _ _); [discriminate|].
      match goal with |- context [reuse ?k ?r ?w] => pose proof (C2 k r w) as X; destruct (reuse k r w) as [o w'] end. cbn [fst] in X.
      destruct o as [[c|e|]|]; cbn; congruence.
    - match goal with |- context [serve ?k ?r ?w] => pose proof (C1 k r w) as X; destruct (serve k r w) as [o w'] end. cbn [fst] in X.
      destruct o as [[c k]|e|]; cbn; congruence.
  Qed.
  Lemma deal_calm : (forall l r w, fst (serve l r w) <> Panic) -> (forall k r w, fst (reuse k r w) <> Some Panic) ->
    forall f locs r s s' a, RouteModel.deal regex parse_ip fmt limit serve rehost closed reuse same_key f locs r s = Some (s', a) -> a <> Panic.
  Proof.
    intros C1 C2. induction f as [|f IH]; intros locs r s s' a; [discriminate|]. cbn [RouteModel.deal].
    destruct (RouteModel.find_loc _ _ _ _ _ _ _) as [[now l]|]; [|intros [= <- <-]; discriminate].
    destruct (RouteModel.do_limit _ _ _ _) as [x s1]. destruct x; try (intros [= <- <-]; discriminate).
    assert (G : RouteModel.ip_gate parse_ip l r <> Panic).
    { unfold RouteModel.ip_gate. destruct (RouteModel.l_allow l), (RouteModel.l_deny l); try discriminate; destruct (RouteModel.r_ip r) as [t|]; try discriminate;
        destruct (parse_ip t); try discriminate; repeat match goal with |- context [if ?b then _ else _] => destruct b end; discriminate. }
    destruct (RouteModel.ip_gate parse_ip l r) as [[|]|e|]; [| |intros [= <- <-]; discriminate|contradiction].
    2:{ intros [= <- <-]; discriminate. }
    assert (Hn : forall q, RouteModel.handle serve rehost closed reuse same_key now l r q = (s', a) -> a <> Panic).
    { intros q E. pose proof (handle_calm C1 C2 now l r q) as X. rewrite E in X. exact X. }
    destruct (RouteModel.l_try l) as [[vals fail]|]; [|intros [= E]; exact (Hn _ E)].
    destruct (RouteModel.mem_nat now (RouteModel.t_tried s1)); [intros [= E]; exact (Hn _ E)|].
    generalize (RouteModel.event (RouteModel.EvTry now) (RouteModel.with_tried (now :: RouteModel.t_tried s1) s1)). clear Hn.
    induction vals as [|v vs IHv]; intros q; cbn [RouteModel.try_all]; [intros [= <- <-]; discriminate|].
    destruct (RouteModel.deal _ _ _ _ _ _ _ _ _ f _ _ _) as [[s2 [b|e|]]|] eqn:E; [|apply IHv| |discriminate].
    - destruct (RouteModel.is_error _); [apply IHv|intros [= <- <-]; discriminate].
    - exfalso. exact (IH _ _ _ _ _ E eq_refl).
  Qed.
  Theorem C130_answered : forall servers r cache w why,
    (forall l r w, fst (serve l r w) <> Panic) -> (forall k r w, fst (reuse k r w) <> Some Panic) ->
    exists s a v, operate servers r cache w = Some (s, a) /\ seen_answer (with_reason why a) = Ok v /\
      match a with
      | Ok x => v_status v = RouteModel.a_status x /\ v_server v = true
      | _ => (v_status v = 500 \/ v_status v = 408 /\ why = ReadTimeout false) /\ v_server v = false
      end.
  Proof.
    intros servers r cache w why C1 C2.
    destruct (RouteProps.C31_terminates regex parse_ip fmt limit serve rehost closed reuse same_key servers r cache w) as (s & a & E & _).
    exists s, a. unfold operate.
    assert (P : a <> Panic).
    { unfold RouteModel.operate in E. destruct (RouteModel.pick_server servers (RouteModel.host_of r)) as [sv|]; [|injection E as <- <-; discriminate].
      exact (deal_calm C1 C2 _ _ _ _ _ _ E). }
    destruct a as [x|e|]; [| |contradiction].
    - eexists. split; [exact E|]. split; [reflexivity|]. split; reflexivity.
    - destruct why as [[|]|]; eexists; (split; [exact E|]); (split; [reflexivity|]); cbn; (split; [|reflexivity]); auto.
  Qed.
End Answers.
Print Assumptions C130_answered.
(* a handler that fails: the client sees 500 *)
Example C130_demo :
  let srv := RouteModel.Server [] [] [] [RouteModel.Location (RouteModel.Matcher None None None None None None) None None false None None None None] in
  let r := RouteModel.Request (txt "/") (txt "GET") (txt "http") None None in
  match RouteModel.operate (W := unit) (fun _ => None) (fun _ => None) (fun _ t => t) (fun _ _ w => (RouteModel.LimOk, w))
    (fun _ _ w => (Err tt, w)) (fun _ q _ => RouteModel.r_host q) (fun _ _ => false) (fun _ _ w => (None, w)) (fun _ _ => false) [srv] r [] tt with
  | Some (_, a) => seen_answer (with_reason (ReadTimeout true) a) = Ok (Seen 500 false) /\ seen_answer (with_reason (ReadTimeout false) a) = Ok (Seen 408 false)
  | None => False
  end.
Proof. vm_compute. split; reflexivity. Qed.
