(* C185: what a reverse-proxy command line makes of the requests of its clients. *)
From Coq Require Import String.
From Verif Require Import Base Text TextOps AddrModel ConfModel HealthModel HealthSpec RouteModel InhModel ArgModel ArgProps OpModel OpSpec OpProofs OpProps BindProofs PlModel PlSpec PlProps TgtModel TgtProps FileModel FsModel FsProofs RpModel RpSpec.
Open Scope N_scope.

Section C185.
  Context (parse_ip : text -> option ipaddr) (parse_sa : text -> option saddr) (local4 local6 : option ipaddr).
  Notation reads := (reads parse_ip parse_sa local4 local6).
  Context (read_file : text -> option text) (yaml toml : text -> option (@copt (list (text * list val)))) (show_sa : saddr -> text).
  Notation asked_start := (asked_start parse_ip parse_sa local4 local6 read_file yaml toml load_web load_streams show_sa).
  Context (show_ip : ipaddr -> text) (connect_url : url -> option text) (name_of : saddr -> addr) (sa : addr -> saddr)
          (regex : text -> option (text -> bool)) (fmt : request -> text -> text)
          (limit : lreq -> text -> world -> limres * world) (rehost : location -> request -> world -> option text)
          (same_key : RouteModel.key -> RouteModel.key -> bool).
  Notation pass := (pass show_ip connect_url name_of sa regex parse_ip fmt limit rehost same_key).
  Notation passes := (passes show_ip connect_url name_of sa regex parse_ip fmt limit rehost same_key).
  Notation http_target := (http_target show_ip connect_url).

  (* the health records at this moment are those of some history of results in which the
     latest one for the address is not between thirty and sixty seconds old *)
  Definition decided (to : saddr) (m : moment) : Prop :=
    exists os, m_health m = hrun (hcheck_new 60 3 2) os /\
      forall c t l, results (name_of to) os = (c, t) :: l -> m_now m - t <= 30 * second \/ 60 * second < m_now m - t.

  (* one request at a site with one location that takes everything *)
  Lemma pass_one h v l port cache conn r m : ac_servers h = [v] -> as_locs v = [l] -> al_rule l = any_rule ->
    pass h port cache conn (r, m) =
      if list_contains (as_bind v) port || list_contains (as_ssl v) port
      then Some (handle (pass_new show_ip connect_url name_of sa h l m) rehost (fun _ _ => m_closed m) (pass_kept m) same_key 0%nat (route_of v l) r
                   (St (r_path r) (r_host r) [] [] cache (World conn []) []))
      else Some (St (r_path r) (r_host r) [] [] cache (World conn []) [], Ok (Answer 503 Own)).
  Proof.
    intros E1 E2 E3. unfold RpModel.pass. rewrite E1, E2. unfold local_servers. cbn [filter site_of s_bind s_bind_ssl fst snd].
    destruct (list_contains (as_bind v) port || list_contains (as_ssl v) port); [|reflexivity].
    unfold operate. cbn [pick_server site_of s_locs]. rewrite ?E2. cbn [map depth List.length RouteModel.deal find_loc t_deals mem_nat existsb].
    assert (M : forall p x, loc_match regex parse_ip (al_rule l) p x = true).
    { intros p x. rewrite E3. destruct (C123_single (RevArgs [] (SAddr localhost 0) [] None false false)) as (sv & l0 & A & B & _ & _ & C & _). cbn in A. injection A as <-. cbn in B. injection B as <-. apply (C regex parse_ip p x). }
    cbn [route_of l_rule]. rewrite M. reflexivity.
  Qed.
  Lemma elsewhere h v (l : aloc) port : ac_servers h = [v] -> as_locs v = [l] -> al_rule l = any_rule ->
    list_contains (as_bind v) port || list_contains (as_ssl v) port = false ->
    forall xs cache conn, Forall (fun y => fst y = []) (passes h port cache conn xs).
  Proof.
    intros E1 E2 E3 N xs. induction xs as [|[r m] xs IH]; intros cache conn; [constructor|]. cbn [RpModel.passes].
    rewrite (pass_one _ _ _ _ _ _ _ _ E1 E2 E3), N. constructor; [reflexivity|apply IH].
  Qed.
  Lemma all_told h v l port (t : target) : ac_servers h = [v] -> as_locs v = [l] -> al_rule l = any_rule ->
    list_contains (as_bind v) port || list_contains (as_ssl v) port = true -> (forall k, same_key k k = true) ->
    forall xs, (forall r m, In (r, m) xs -> exists u, al_url l = Some u /\ forall s, http_target (url_of u) (ups_now name_of sa h m) s = Ok t) ->
    forall (b : bool) cache conn, cache = (if b then [loc_key (route_of v l)] else []) -> (b = true -> conn = Some t) ->
    told t b xs (passes h port cache conn xs).
  Proof.
    intros E1 E2 E3 P SK xs. induction xs as [|[r m] xs IH]; intros HT b cache conn EC EW; [constructor|]. cbn [RpModel.passes].
    rewrite (pass_one _ _ _ _ _ _ _ _ E1 E2 E3), P.
    assert (HX : forall r m, In (r, m) xs -> exists u, al_url l = Some u /\ forall s, http_target (url_of u) (ups_now name_of sa h m) s = Ok t) by (intros r0 m0 I0; apply (HT r0 m0); now right).
    specialize (IH HX). destruct (HT r m (or_introl eq_refl)) as (u & EU & ET). set (k := loc_key (route_of v l)) in *.
    unfold handle. fold k. cbn [t_cache with_deals t_world t_path t_host set_req_path set_host r_path].
    destruct b; subst cache; cbn [cached existsb].
    - rewrite SK. cbn [orb]. rewrite (EW eq_refl). destruct (m_closed m) eqn:CL.
      + cbn [fst snd with_cache t_world t_cache w_sent w_conn uncache filter a_status]. apply told_closed; [exact CL|]. apply IH; [|discriminate].
        unfold uncache. cbn [filter]. rewrite SK. reflexivity.
      + unfold pass_kept at 1. cbn [w_conn w_sent app with_cache t_world].
        assert (U : uncache same_key k [k] = []) by (unfold uncache; cbn [filter]; now rewrite SK). rewrite U.
        pose proof (told_kept t r m xs) as TK.
        destruct (m_kept m) as [[c|[]|]|] eqn:K; cbn [fst snd event with_cache with_world t_world t_cache w_sent w_conn a_status];
          apply TK; try exact CL; apply IH; try reflexivity; discriminate.
    - unfold pass_new at 1. rewrite EU, ET. pose proof (told_new t r m xs) as TN.
      destruct (m_new m) as [[c k']|[]|] eqn:K; cbn [fst snd event with_cache with_world with_host t_world t_cache w_sent w_conn app a_status]; [destruct k'|..];
        cbn [event with_cache with_world with_host with_deals t_world t_cache w_sent w_conn app]; apply TN; apply IH; try reflexivity; discriminate.
  Qed.

  (* the site of a reverse-proxy command: what its options come to *)
  Lemma rp_site : forall argv ws o, asked_start argv (txt "reverse-proxy" :: ws) = Some o ->
    exists a h v l os, o_http o = Some h /\ spelled ws (flat_map written os) /\ command_by reads os (CReverse a) /\
      ac_servers h = [v] /\ as_locs v = [l] /\ al_rule l = any_rule /\ as_bind v = ra_from a /\ as_ssl v = [] /\
      ac_ups h = ac_ups (reverse_section a) /\ al_url l = Some (ra_tls a, txt "server") /\
      (exists sv, In sv (ac_servers (reverse_section a)) /\ In l (as_locs sv)).
  Proof.
    intros argv ws o H. destruct (start_line _ _ _ _ _ _ _ _ _ _ _ _ _ _ H) as (c & sh & L & Pe). destruct (C171_settings_partial _ _ _ _ _ _ _ _ L) as (W & cn & os & _ & Sp & _ & _ & B).
    assert (E : exists a, c = CReverse a) by (destruct c; try (exfalso; revert W; vm_compute; discriminate); eauto). destruct E as (a & ->).
    unfold parse_env in Pe. destruct (sh_daemon sh && sh_forever sh); [discriminate|]. destruct (sh_daemon sh); [discriminate|]. destruct (sh_forever sh); [discriminate|].
    destruct (load_one (reverse_section a) _ _ eq_refl eq_refl eq_refl) as (h & v' & E0 & E1 & E2 & E3 & E4 & _).
    unfold start, after in Pe. cbn [with_http from_shared o_http] in Pe. rewrite E0 in Pe. injection Pe as <-.
    exists a, h, v'. eexists. exists os. split; [reflexivity|]. split; [exact Sp|]. split; [exact B|]. split; [exact E1|]. split; [exact E2|].
    split; [reflexivity|]. split; [exact E3|]. split; [exact E4|].
    split; [unfold load_web in E0; injection E0 as <-; reflexivity|]. split; [reflexivity|]. eexists. split; [left; reflexivity|left; reflexivity].
  Qed.
  Lemma port_of l port : list_contains l port || list_contains [] port = true <-> exists a, In a l /\ sa_port a = port.
  Proof. rewrite orb_true_iff, !BindProofs.contains_ok. split; [intros [H|(x & [] & _)]; exact H|auto]. Qed.

  (* C185: at every port of --from all requests of a client go to the address of --to, over
     TLS exactly with --tls, and the client is told what came back; at no other port is
     anything passed on.  Not with the Host of the client: a new connection gets the name
     of the backend, a kept one the Host as it came.  Missing: moments with a result for
     the address that is between thirty and sixty seconds old. *)
  Theorem C185_passed_partial : forall argv ws o, asked_start argv (txt "reverse-proxy" :: ws) = Some o ->
    (forall x, sa (name_of x) = x) -> (forall k, same_key k k = true) ->
    exists h os l to tls, o_http o = Some h /\ spelled ws (flat_map written os) /\
    means reads (Or TAddrs usual) (given "from" os) [VAddrs l] /\ means reads (One TAddr) (given "to" os) [VAddr to] /\ means reads Switch (given "tls" os) [VBool tls] /\
    (forall port xs, ~ (exists a, In a l /\ sa_port a = port) -> Forall (fun y => fst y = []) (passes h port [] None xs)) /\
    forall port xs t, (exists a, In a l /\ sa_port a = port) ->
      connect_url (Url (if tls then OtherScheme (txt "https") else Http) (Some (show_ip (sa_ip to))) (Some (sa_port to))) = Some t ->
      (forall r m, In (r, m) xs -> decided to m) -> told (Target t tls) false xs (passes h port [] None xs).
  Proof.
    intros argv ws o H SA SK. destruct (rp_site _ _ _ H) as (a & h & v & l & os & E0 & Sp & (B1 & B2 & _ & _ & B3 & _) & E1 & E2 & E3 & E4 & E5 & E6 & E7 & E8).
    exists h, os, (ra_from a), (ra_to a), (ra_tls a). split; [exact E0|]. split; [exact Sp|]. split; [exact B1|]. split; [exact B2|]. split; [exact B3|]. split.
    - intros port xs NP. apply (elsewhere h v l port E1 E2 E3). apply not_true_iff_false. rewrite E4, E5. intros X. apply NP. now apply port_of.
    - intros port xs t P C D. apply (all_told h v l port (Target t (ra_tls a)) E1 E2 E3); [rewrite E4, E5; now apply port_of|exact SK| |reflexivity|discriminate].
      intros r m I. exists (ra_tls a, txt "server"). split; [exact E7|]. intros s. destruct (D r m I) as (ops & EH & G).
      unfold ups_now. rewrite EH, E6.
      apply (C123_backend_partial show_ip connect_url name_of sa a (m_draw m) (m_now m) ops s t (ra_tls a) l SA E8 G (ra_tls a) (txt "server") E7).
      split; [exact C|reflexivity].
  Qed.
  (* false of the code: when the backend has closed the connection that was kept, the next
     request of the client is not passed on, and it is told 404 *)
  Theorem C185_closed_refuted : forall argv ws o, asked_start argv (txt "reverse-proxy" :: ws) = Some o ->
    (forall x, sa (name_of x) = x) -> (forall k, same_key k k = true) ->
    exists h os l to tls, o_http o = Some h /\ spelled ws (flat_map written os) /\
    means reads (Or TAddrs usual) (given "from" os) [VAddrs l] /\ means reads (One TAddr) (given "to" os) [VAddr to] /\ means reads Switch (given "tls" os) [VBool tls] /\
    forall port r1 m1 r2 m2 c t, (exists a, In a l /\ sa_port a = port) ->
      connect_url (Url (if tls then OtherScheme (txt "https") else Http) (Some (show_ip (sa_ip to))) (Some (sa_port to))) = Some t ->
      decided to m1 -> decided to m2 -> m_new m1 = Ok (c, true) -> m_closed m2 = true ->
      passes h port [] None [(r1, m1); (r2, m2)] = [([Passed (Target t tls) (Some t)], Ok c); ([], Ok 404)].
  Proof.
    intros argv ws o H SA SK. destruct (C185_passed_partial argv ws o H SA SK) as (h & os & l & to & tls & A1 & A2 & A3 & A4 & A5 & _ & A6).
    exists h, os, l, to, tls. repeat (split; [assumption|]). intros port r1 m1 r2 m2 c t P C D1 D2 N CL.
    assert (T := A6 port [(r1, m1); (r2, m2)] t P C). assert (X : forall r m, In (r, m) [(r1, m1); (r2, m2)] -> decided to m) by (intros r m [[= <- <-]|[[= <- <-]|[]]]; assumption).
    specialize (T X). revert T. generalize (passes h port [] None [(r1, m1); (r2, m2)]) as Y. intros Y T. clear - T N CL. inversion T as [|r0 m0 xs0 ys0 T1 e1 e2 e3| |]; subst. rewrite N in T1.
    inversion T1 as [| |r0 m0 xs0 ys1 CL1 T2 f1 f2 f3|r0 m0 xs0 ys1 CL1 T2 f1 f2 f3]; subst; [congruence|]. inversion T2; subst. rewrite N. reflexivity.
  Qed.
End C185.

(* the documented line, and four requests of a client: the second goes over the kept
   connection, the third finds it closed, the fourth opens a new one *)
Notation rp_start ws :=
  (asked_start (fun _ => None) ex_sa None None (fun _ => None) (fun _ => None) (fun _ => None) load_web load_streams (fun _ => []) [] (map txt ws)).
Definition rp_key (a b : RouteModel.key) : bool := true.
Notation rp_passes := (passes (fun _ => txt "back") (fun u => option_map (fun p => txt "back:" ++ show p) (u_port u)) (fun a => show (sa_port a))
  (fun t => SAddr localhost (match parse_uint 65535 t with Some p => p | None => 0 end))
  (fun _ => None) (fun _ => None) (fun _ p => p) (fun _ _ w => (LimOk, w)) (fun _ r _ => r_host r) rp_key).
Definition at_moment (new : res unit (N * bool)) (closed : bool) (kept : option (res unit N)) : moment := Moment 5 0 (hcheck_new 60 3 2) new closed kept.
Example C185_case :
  match rp_start ["reverse-proxy"; "-f"; "0.0.0.0:8091"; "-t"; "1.2.3.4:80"]%string with
  | Some o => match o_http o with
    | Some h =>
      let rq := Request (txt "/a") (txt "GET") (txt "http") (Some (txt "site.org")) None in
      let t := Target (txt "back:80") false in
      let xs := [(rq, at_moment (Ok (200, true)) false None); (rq, at_moment (Ok (500, true)) false (Some (Ok 201)));
                 (rq, at_moment (Ok (500, true)) true None); (rq, at_moment (Ok (202, true)) false None)] in
      rp_passes h 8091 [] None xs =
        [([Passed t (Some (txt "back:80"))], Ok 200); ([Passed t (Some (txt "site.org"))], Ok 201); ([], Ok 404); ([Passed t (Some (txt "back:80"))], Ok 202)] /\
      rp_passes h 80 [] None xs = [([], Ok 503); ([], Ok 503); ([], Ok 503); ([], Ok 503)]
    | None => False end
  | None => False end.
Proof. vm_compute. split; reflexivity. Qed.
Example C185_decided : decided (fun a => show (sa_port a)) (SAddr localhost 80) (at_moment (Ok (200, true)) false None).
Proof. exists []. split; [reflexivity|]. intros c t l H. discriminate H. Qed.
Print Assumptions C185_passed_partial.
Print Assumptions C185_closed_refuted.
