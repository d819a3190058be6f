(* C28-C31, C58-C60: routing of HTTP requests. *)
From Coq Require Import String.
From Verif Require Import Base Text TextOps ConfModel AddrModel AddrSpec AddrProofs RouteModel RouteSpec RouteProofs.
Open Scope N_scope.

(* C28 *)
Theorem C28_wildcard_partial : forall path pattern, In 42 pattern -> (is_match path pattern = true <-> glob pattern path).
Proof. exact is_match_star. Qed.
(* missing: a pattern without a star accepts every path it is a prefix of *)
Theorem C28_plain_refuted : forall path pattern, ~ In 42 pattern -> (is_match path pattern = true <-> exists rest, path = pattern ++ rest).
Proof. exact is_match_plain. Qed.
Example C28_demo :
  is_match (txt "/wmproxy/is_good") (txt "/wm*is*od") = true /\ is_match (txt "/wmproxy/is_good") (txt "/wm*gone*od") = false /\
  is_match (txt "/ab") (txt "/ab*b") = false /\ ~ glob (txt "/ab*b") (txt "/ab") /\
  is_match (txt "/private-not") (txt "/private") = true /\ ~ glob (txt "/private") (txt "/private-not").
Proof.
  repeat split; try (vm_compute; reflexivity).
  - intros H. apply is_match_star in H; [|vm_compute; tauto]. vm_compute in H. discriminate.
  - intros H. apply glob_lit in H; [|reflexivity]. vm_compute in H. discriminate.
Qed.

Section Props.
  Context {W : Type} (regex : text -> option (text -> bool)) (parse_ip : text -> option ipaddr)
          (fmt : request -> text -> text)
          (limit : lreq -> text -> W -> limres * W)
          (serve : location -> request -> W -> res unit (N * bool) * W)
          (rehost : location -> request -> W -> option text)
          (closed : key -> W -> bool)
          (reuse : key -> request -> W -> option (res unit N) * W)
          (same_key : key -> key -> bool).
  Notation operate := (@operate W regex parse_ip fmt limit serve rehost closed reuse same_key).
  Notation deal := (@deal W regex parse_ip fmt limit serve rehost closed reuse same_key).
  Notation first_holds := (first_holds regex parse_ip).

  (* ---- C29 ---- *)
  (* Full statement: a request is looked at in exactly one server, the selected one, and
     whenever a location produces an answer or a backend connection is used for it, it is
     the first location of that server whose conditions all hold, for the requested path
     or for the path a try_paths entry expands to.  Proved for every use before which only
     locations that leave the Host alone (files, fixed answers) were used, so for the first
     one always ... *)
  Theorem C29_first_match_partial : forall servers r cache w s a, operate servers r cache w = Some (s, a) -> servers <> [] ->
    exists sv, selected servers (requested_host r) sv /\
      forall pre e post i p, t_trace s = pre ++ e :: post -> e = EvServe i p \/ e = EvReuse i p ->
        (forall j q l, In (EvServe j q) pre -> nth_error (s_locs sv) j = Some l -> leaves_host rehost l) ->
        (exists l, first_holds (s_locs sv) p r i l) /\ (p = r_path r \/ expansion fmt (s_locs sv) r p).
  Proof.
    intros servers r cache w s a H Hn. unfold RouteModel.operate in H.
    destruct (pick_server servers (host_of r)) as [sv|] eqn:E; [|apply pick_none in E; contradiction].
    exists sv. split; [apply pick_selected; exact E|].
    assert (U := deal_route regex parse_ip fmt limit serve rehost closed reuse same_key (s_locs sv) r _ (St (r_path r) (r_host r) [] [] cache w []) s a eq_refl eq_refl eq_refl eq_refl H).
    exact U.
  Qed.
  (* ... in particular for all of them where every location does ... *)
  Theorem C29_all_partial : forall servers r cache w s a, operate servers r cache w = Some (s, a) -> servers <> [] ->
    (forall sv l, In sv servers -> In l (s_locs sv) -> leaves_host rehost l) ->
    exists sv, selected servers (requested_host r) sv /\
      forall i p, In (EvServe i p) (t_trace s) \/ In (EvReuse i p) (t_trace s) ->
        (exists l, first_holds (s_locs sv) p r i l) /\ (p = r_path r \/ expansion fmt (s_locs sv) r p).
  Proof.
    intros servers r cache w s a H Hn HL. destruct (C29_first_match_partial _ _ _ _ _ _ H Hn) as (sv & S0 & U). exists sv. split; [exact S0|].
    assert (Isv : In sv servers) by (destruct S0 as (pre & post & -> & _); apply in_app_iff; right; left; reflexivity).
    intros i p I. assert (X : exists pre e post, t_trace s = pre ++ e :: post /\ (e = EvServe i p \/ e = EvReuse i p)).
    { destruct I as [I|I]; apply in_split in I as (pre & post & ->); eexists _, _, _; (split; [reflexivity|auto]). }
    destruct X as (pre & e & post & X1 & X2). apply (U pre e post i p X1 X2). intros j q l _ Nl. apply (HL sv l Isv). eapply nth_error_In. exact Nl.
  Qed.
  (* ... but false of the code after a try path was passed on to a backend: the next one is
     looked up with the Host that was written into the request for that backend. *)
  Theorem C29_try_host_refuted : forall servers sv r cache w i l u v post fail j lj c keep w' k lk c' keep' w'',
    let h := rehost lj (Request (fmt r u) (r_method r) (r_scheme r) (r_host r) (r_ip r)) w in
    let p := fmt (Request (r_path r) (r_method r) (r_scheme r) h (r_ip r)) v in
    let r' := Request p (r_method r) (r_scheme r) h (r_ip r) in
    selected servers (requested_host r) sv -> first_holds (s_locs sv) (r_path r) r i l ->
    l_limit l = None -> l_allow l = None -> l_deny l = None -> l_try l = Some (u :: v :: post, fail) ->
    first_holds (s_locs sv) (fmt r u) r j lj ->
    l_limit lj = None -> l_allow lj = None -> l_deny lj = None -> l_try lj = None -> cached same_key (loc_key lj) cache = false ->
    serve lj (Request (fmt r u) (r_method r) (r_scheme r) (r_host r) (r_ip r)) w = (Ok (c, keep), w') -> 400 <= c < 600 ->
    first_holds (s_locs sv) p r' k lk ->
    l_limit lk = None -> l_allow lk = None -> l_deny lk = None -> l_try lk = None ->
    cached same_key (loc_key lk) (if keep then loc_key lj :: cache else cache) = false ->
    serve lk r' w' = (Ok (c', keep'), w'') -> c' < 400 ->
    exists s, operate servers r cache w = Some (s, Ok (Answer c' (FromServe k))) /\
      t_trace s = [EvTry i; EvServe j (fmt r u); EvServe k p].
  Proof.
    intros servers sv r cache w i l u v post fail j lj c keep w' k lk c' keep' w'' h p r' Hs F L1 L2 L3 L4 Fj M1 M2 M3 M4 Mc Vj Ec Fk N1 N2 N3 N4 Nc Vk Ec'.
    unfold RouteModel.operate. destruct (pick_server servers (host_of r)) as [sv'|] eqn:E.
    2:{ apply pick_none in E. destruct Hs as (pre0 & post0 & -> & _). destruct pre0; discriminate. }
    assert (sv' = sv) by (eapply selected_unique; [apply pick_selected; exact E|exact Hs]). subst sv'.
    assert (Fi : forall q r0 i0 l0, first_holds (s_locs sv) q r0 i0 l0 -> find_loc regex parse_ip 0 (s_locs sv) [] q (set_req_path r0 q) = Some (i0, l0)).
    { intros q r0 i0 l0 F0. assert (F' := find_first regex parse_ip (s_locs sv) q q r0).
      destruct (find_loc regex parse_ip 0 (s_locs sv) [] q (set_req_path r0 q)) as [[i' l']|].
      - destruct (first_unique _ _ _ _ _ _ _ _ _ F0 F') as [<- <-]. reflexivity.
      - exfalso. destruct F0 as (X1 & X2 & _). apply (F' l0); [eapply nth_error_In; exact X1|exact X2]. }
    assert (R : set_req_path (set_host r (r_host r)) (r_path r) = r) by (destruct r; reflexivity).
    unfold depth. cbn [RouteModel.deal t_deals t_path t_host]. rewrite set_host_same, (Fi _ _ _ _ F).
    unfold do_limit at 1, ip_gate at 1. rewrite L1, L2, L3, L4. cbn beta iota zeta. cbn [t_tried mem_nat existsb t_path].
    destruct (s_locs sv) as [|x0 locs0] eqn:Q; [destruct F as [F _]; destruct i; discriminate|]. cbn [length]. rewrite <- Q in *.
    cbn [try_all]. cbn [event with_tried t_host t_path]. rewrite R. cbn [RouteModel.deal t_deals with_path with_deals t_path t_host]. rewrite set_host_same, (Fi _ _ _ _ Fj).
    unfold do_limit at 1, ip_gate at 1. rewrite M1, M2, M3, M4. cbn beta iota zeta. unfold handle at 1.
    cbn [t_cache with_deals t_world t_path with_path t_host event with_tried]. rewrite Mc, set_host_same. unfold set_req_path at 1. rewrite Vj.
    cbn [a_status]. replace (is_error c) with true by (unfold is_error; symmetry; apply andb_true_iff; split; apply N.leb_le; lia). cbn iota.
    assert (G : forall s0, t_host s0 = h -> t_cache s0 = (if keep then loc_key lj :: cache else cache) -> t_world s0 = w' -> t_trace s0 = [EvTry i; EvServe j (fmt r u)] ->
      exists s, try_all fmt (deal (S (length locs0)) (s_locs sv) r) r (r_path r) fail (v :: post) s0 = Some (s, Ok (Answer c' (FromServe k))) /\
        t_trace s = [EvTry i; EvServe j (fmt r u); EvServe k p]).
    { intros s0 T1 T2 T3 T4. cbn [try_all]. rewrite T1. change (set_req_path (set_host r h) (r_path r)) with (Request (r_path r) (r_method r) (r_scheme r) h (r_ip r)). fold p.
      cbn [RouteModel.deal t_deals with_path with_deals t_path t_host]. rewrite T1.
      change (set_req_path (set_host r h) p) with (set_req_path r' p). rewrite (Fi _ _ _ _ Fk).
      unfold do_limit, ip_gate. rewrite N1, N2, N3, N4. cbn beta iota zeta. unfold handle.
      cbn [t_cache with_deals t_world t_path with_path t_host]. rewrite T2, Nc, T3, T1.
      change (set_req_path (set_host r h) p) with r'. rewrite Vk. cbn [a_status]. replace (is_error c') with false by (unfold is_error; symmetry; apply andb_false_iff; left; apply N.leb_gt; lia).
      destruct keep'; eexists; (split; [reflexivity|]); cbn; rewrite T4; reflexivity. }
    destruct keep; apply G; reflexivity.
  Qed.
  (* the answer is our own or that of the location used last *)
  Theorem C29_answer : forall servers r cache w s a, operate servers r cache w = Some (s, a) -> answer_ok s a.
  Proof.
    intros servers r cache w s a H. unfold RouteModel.operate in H. destruct (pick_server servers (host_of r)) as [sv|].
    - eapply deal_answer. exact H.
    - injection H as <- <-. exact I.
  Qed.
  (* no location matches: 404, and nothing is done *)
  Theorem C29_none : forall servers sv r cache w, selected servers (requested_host r) sv ->
    (forall l, In l (s_locs sv) -> ~ holds regex parse_ip (l_rule l) (r_path r) r) ->
    exists s, operate servers r cache w = Some (s, Ok (Answer 404 Own)) /\ t_trace s = [].
  Proof.
    intros servers sv r cache w Hs Hn. unfold RouteModel.operate.
    destruct (pick_server servers (host_of r)) as [sv'|] eqn:E.
    - assert (sv' = sv) by (eapply selected_unique; [apply pick_selected; exact E|exact Hs]). subst sv'.
      unfold depth. cbn [RouteModel.deal t_deals t_path t_host]. rewrite set_host_same.
      assert (F := find_first regex parse_ip (s_locs sv) (r_path r) (r_path r) r).
      destruct (find_loc regex parse_ip 0 (s_locs sv) [] (r_path r) (set_req_path r (r_path r))) as [[i l]|].
      + exfalso. destruct F as (F1 & F2 & _). apply (Hn l); [eapply nth_error_In; exact F1|exact F2].
      + eexists. split; reflexivity.
    - apply pick_none in E. destruct Hs as (pre & post & -> & _). destruct pre; discriminate.
  Qed.
  (* a location with no limits, lists and try paths serves every request it is
     the first match for, when no connection is kept for it *)
  Theorem C29_served : forall servers sv r cache w i l c keep w', selected servers (requested_host r) sv ->
    first_holds (s_locs sv) (r_path r) r i l ->
    l_limit l = None -> l_allow l = None -> l_deny l = None -> l_try l = None -> cached same_key (loc_key l) cache = false ->
    serve l r w = (Ok (c, keep), w') ->
    exists s, operate servers r cache w = Some (s, Ok (Answer c (FromServe i))) /\ t_trace s = [EvServe i (r_path r)].
  Proof.
    intros servers sv r cache w i l c keep w' Hs F L1 L2 L3 L4 Hc Hv. unfold RouteModel.operate.
    destruct (pick_server servers (host_of r)) as [sv'|] eqn:E.
    2:{ apply pick_none in E. destruct Hs as (pre & post & -> & _). destruct pre; discriminate. }
    assert (sv' = sv) by (eapply selected_unique; [apply pick_selected; exact E|exact Hs]). subst sv'.
    unfold depth. cbn [RouteModel.deal t_deals t_path t_host]. rewrite set_host_same.
    assert (F' := find_first regex parse_ip (s_locs sv) (r_path r) (r_path r) r).
    destruct (find_loc regex parse_ip 0 (s_locs sv) [] (r_path r) (set_req_path r (r_path r))) as [[i' l']|].
    2:{ exfalso. destruct F as (F1 & F2 & _). apply (F' l); [eapply nth_error_In; exact F1|exact F2]. }
    destruct (first_unique _ _ _ _ _ _ _ _ _ F F') as [<- <-].
    unfold do_limit, ip_gate. rewrite L1, L2, L3, L4. cbn beta iota zeta. unfold handle.
    cbn [t_cache with_deals t_world t_path]. rewrite Hc.
    cbn [t_host]. rewrite ?set_host_same. replace (set_req_path r (r_path r)) with r by (destruct r; reflexivity). rewrite Hv.
    destruct keep; eexists; (split; [reflexivity|reflexivity]).
  Qed.

  (* ---- C30 ---- *)
  (* over HTTP no location is used, and no backend connection, for an address that
     the location's lists refuse *)
  Theorem C30_every_use_partial : forall servers r cache w s a t, operate servers r cache w = Some (s, a) -> r_ip r = Some t ->
    forall i p, In (EvServe i p) (t_trace s) \/ In (EvReuse i p) (t_trace s) ->
      exists sv l, selected servers (requested_host r) sv /\ nth_error (s_locs sv) i = Some l /\
        ((l_allow l = None /\ l_deny l = None) \/ exists ip, parse_ip t = Some ip /\ permitted l ip).
  Proof.
    intros servers r cache w s a t H Ht i p I. unfold RouteModel.operate in H.
    destruct (pick_server servers (host_of r)) as [sv|] eqn:E.
    2:{ injection H as <- _. destruct I as [[]|[]]. }
    assert (U : Forall (use_ok regex parse_ip (s_locs sv) r) (t_trace s)) by (eapply deal_uses; [| |exact H]; [constructor|reflexivity]).
    rewrite Forall_forall in U. assert (G : exists h l, first_holds (s_locs sv) p (set_host r h) i l /\ gate_passed parse_ip l r).
    { destruct I as [I|I]; exact (U _ I). }
    destruct G as (h & l & (F & _) & G). exists sv, l. split; [apply pick_selected; exact E|]. split; [exact F|].
    destruct (l_allow l) eqn:Ea; [right; apply (G t Ht); left; congruence|].
    destruct (l_deny l) eqn:Ed; [right; apply (G t Ht); right; congruence|]. auto.
  Qed.
  (* a request whose location refuses the address is answered 503 (or refused by the
     location's rate limiter), and nothing else happens *)
  Theorem C30_refused_partial : forall servers sv r cache w i l t ip, selected servers (requested_host r) sv ->
    first_holds (s_locs sv) (r_path r) r i l -> r_ip r = Some t -> parse_ip t = Some ip -> ~ permitted l ip ->
    exists s a, operate servers r cache w = Some (s, a) /\ t_trace s = [] /\
      (a = Ok (Answer 503 Own) \/ (l_limit l <> None /\ (a = Ok (Answer 404 Own) \/ a = Err tt))).
  Proof.
    intros servers sv r cache w i l t ip Hs F Ht Hi Hp. unfold RouteModel.operate.
    destruct (pick_server servers (host_of r)) as [sv'|] eqn:E.
    2:{ apply pick_none in E. destruct Hs as (pre & post & -> & _). destruct pre; discriminate. }
    assert (sv' = sv) by (eapply selected_unique; [apply pick_selected; exact E|exact Hs]). subst sv'.
    unfold depth. cbn [RouteModel.deal t_deals t_path t_host]. rewrite set_host_same.
    assert (F' := find_first regex parse_ip (s_locs sv) (r_path r) (r_path r) r).
    destruct (find_loc regex parse_ip 0 (s_locs sv) [] (r_path r) (set_req_path r (r_path r))) as [[i' l']|].
    2:{ exfalso. destruct F as (F1 & F2 & _). apply (F' l); [eapply nth_error_In; exact F1|exact F2]. }
    destruct (first_unique _ _ _ _ _ _ _ _ _ F F') as [<- <-].
    rewrite (ip_gate_refuse parse_ip l r t ip Ht Hi Hp).
    destruct (do_limit limit l r _) as [x s1] eqn:El. assert (Hx : x <> LimOk -> l_limit l <> None).
    { intros Hx Hl. unfold do_limit in El. rewrite Hl in El. injection El as <- _. congruence. }
    destruct (do_limit_st _ _ _ _ _ _ El) as [w' ->].
    destruct x; eexists _, _; (split; [reflexivity|]); (split; [reflexivity|]); auto.
    - right. split; [apply Hx; discriminate|]. auto.
    - right. split; [apply Hx; discriminate|]. auto.
  Qed.
  (* in the words of networks: an address of a denied IPv4 network, a denied single address,
     and an address of no allowed network are refused *)
  Theorem C30_network_partial : forall servers sv r cache w i l t ip, selected servers (requested_host r) sv ->
    first_holds (s_locs sv) (r_path r) r i l -> r_ip r = Some t -> parse_ip t = Some ip -> ip_ok ip ->
    (exists d y n, l_deny l = Some d /\ In (Gate (V4 y) n) d /\ y < 2 ^ 32 /\ 1 <= n <= 32 /\ cidr (V4 y) n ip) \/
    (exists d, l_deny l = Some d /\ (In (Gate ip 0) d \/ exists y n, ip = V6 y /\ In (Gate ip n) d)) \/
    (exists al, l_allow l = Some al /\ forall g, In g al -> ip_ok (g_ip g) /\ (match g_ip g with V4 _ => g_len g <= 32 | V6 _ => g_len g <= 128 end) /\ ~ cidr (g_ip g) (g_len g) ip) ->
    exists s a, operate servers r cache w = Some (s, a) /\ t_trace s = [] /\
      (a = Ok (Answer 503 Own) \/ (l_limit l <> None /\ (a = Ok (Answer 404 Own) \/ a = Err tt))).
  Proof.
    intros servers sv r cache w i l t ip Hs F Ht Hi Hok H. apply (C30_refused_partial servers sv r cache w i l t ip Hs F Ht Hi).
    intros [PA PD]. destruct H as [(d & y & n & Hd & I & Hy & Hn & C)|[(d & Hd & H)|(al & Ha & H)]].
    - apply (PD d Hd). exists (Gate (V4 y) n). split; [exact I|]. apply gate_v4; assumption.
    - apply (PD d Hd). destruct H as [I|(y & n & -> & I)].
      + exists (Gate ip 0). split; [exact I|]. apply gate_eq; [now left|reflexivity].
      + exists (Gate (V6 y) n). split; [exact I|]. apply gate_eq; [right; now exists y|reflexivity].
    - destruct (PA al Ha) as ([gi gl] & I & C). destruct (H _ I) as (H1 & H2 & H3). apply H3. apply gate_sound; assumption.
  Qed.
  (* false of the code for websockets: the lists are not looked at when one is
     opened.  The location a websocket is connected through does not depend on
     them at all. *)
  Definition unlisted (l : location) : location :=
    Location (l_rule l) (l_up_name l) (l_meth l) (l_is_ws l) (l_try l) (l_limit l) None None.
  Definition unlisted_server (s : server) : server := Server (s_up_name s) (s_bind s) (s_bind_ssl s) (map unlisted (s_locs s)).
  Theorem C30_websocket_refuted : forall servers r,
    option_map unlisted (ws_connects regex parse_ip servers r) = ws_connects regex parse_ip (map unlisted_server servers) r.
  Proof.
    assert (F : forall ls p r, find (fun l => loc_match regex parse_ip (l_rule l) p r) (map unlisted ls) =
              option_map unlisted (find (fun l => loc_match regex parse_ip (l_rule l) p r) ls)).
    { induction ls as [|l ls IH]; intros p r; cbn [map find]; [reflexivity|]. cbn [unlisted l_rule].
      destruct (loc_match regex parse_ip (l_rule l) p r); [reflexivity|apply IH]. }
    assert (G : forall servers r, ws_location regex parse_ip (map unlisted_server servers) r = option_map unlisted (ws_location regex parse_ip servers r)).
    { induction servers as [|s ss IH]; intros r; cbn [map ws_location]; [reflexivity|]. cbn [s_up_name unlisted_server s_locs].
      rewrite IH. rewrite F. destruct ss as [|s' ss']; cbn [map];
        (destruct (leqb (s_up_name s) (host_of r) || _ || _); [|reflexivity];
         destruct (find _ (s_locs s)); reflexivity). }
    intros servers r. unfold ws_connects. rewrite G. destruct (ws_location regex parse_ip servers r) as [l|]; [|reflexivity].
    cbn [option_map]. change (l_is_ws (unlisted l)) with (l_is_ws l). destruct (l_is_ws l); reflexivity.
  Qed.

  (* ---- C31 ---- *)
  (* every request is answered: the recursion never goes deeper than one level per
     location, more room changes nothing, and no location is tried twice *)
  Theorem C31_terminates : forall servers r cache w, exists s a, operate servers r cache w = Some (s, a) /\ NoDup (tries (t_trace s)).
  Proof.
    intros servers r cache w. unfold RouteModel.operate. destruct (pick_server servers (host_of r)) as [sv|].
    2:{ eexists _, _. split; [reflexivity|constructor]. }
    assert (T : tried_ok (s_locs sv) (St (r_path r) (r_host r) [] [] cache w [])) by (split; constructor).
    destruct (deal (depth (s_locs sv)) (s_locs sv) r (St (r_path r) (r_host r) [] [] cache w [])) as [[s a]|] eqn:E.
    - exists s, a. split; [reflexivity|].
      assert (Q : tried_ok (s_locs sv) s /\ tries (t_trace s) = rev (t_tried s)) by (eapply deal_tries; [exact T| | |exact E]; reflexivity).
      destruct Q as [[N _] ->].
      apply NoDup_rev. exact N.
    - exfalso. revert E. apply deal_some; [exact T|reflexivity|]. unfold depth. cbn. lia.
  Qed.
  Theorem C31_enough_fuel : forall locs r p h cache w f, (depth locs <= f)%nat ->
    deal f locs r (St p h [] [] cache w []) = deal (depth locs) locs r (St p h [] [] cache w []).
  Proof.
    intros locs r p h cache w f L.
    destruct (deal (depth locs) locs r (St p h [] [] cache w [])) as [x|] eqn:E.
    - eapply deal_more'; eassumption.
    - exfalso. revert E. apply deal_some; [split; constructor|reflexivity|]. unfold depth. cbn. lia.
  Qed.

  (* the location that tries other paths: its answer is the first one that is not
     an error, or else the configured status *)
  Theorem C31_fallback : forall servers sv r cache w i l vals fail s a, selected servers (requested_host r) sv ->
    first_holds (s_locs sv) (r_path r) r i l ->
    l_limit l = None -> l_allow l = None -> l_deny l = None -> l_try l = Some (vals, fail) ->
    operate servers r cache w = Some (s, a) ->
    a = Panic \/ a = Ok (Answer fail Own) \/ exists x, a = Ok x /\ (a_status x < 400 \/ 600 <= a_status x).
  Proof.
    intros servers sv r cache w i l vals fail s a Hs F L1 L2 L3 L4. unfold RouteModel.operate.
    destruct (pick_server servers (host_of r)) as [sv'|] eqn:E.
    2:{ apply pick_none in E. destruct Hs as (pre & post & -> & _). destruct pre; discriminate. }
    assert (sv' = sv) by (eapply selected_unique; [apply pick_selected; exact E|exact Hs]). subst sv'.
    unfold depth. cbn [RouteModel.deal t_deals t_path t_host]. rewrite set_host_same.
    assert (F' := find_first regex parse_ip (s_locs sv) (r_path r) (r_path r) r).
    destruct (find_loc regex parse_ip 0 (s_locs sv) [] (r_path r) (set_req_path r (r_path r))) as [[i' l']|].
    2:{ exfalso. destruct F as (F1 & F2 & _). apply (F' l); [eapply nth_error_In; exact F1|exact F2]. }
    destruct (first_unique _ _ _ _ _ _ _ _ _ F F') as [<- <-].
    unfold do_limit, ip_gate. rewrite L1, L2, L3, L4. cbn beta iota zeta. cbn [t_tried mem_nat existsb]. intros H. apply try_all_result in H.
    destruct H as [H|[H|(x & H & K)]]; auto. right. right. exists x. split; [exact H|]. unfold is_error in K. lia.
  Qed.

  (* the entries are tried in order: those whose path no location takes are passed over, the
     first other one is requested, by its own path, and its answer is given *)
  Theorem C31_entry : forall servers sv r cache w i l pre v post fail i' l' c keep w', selected servers (requested_host r) sv ->
    first_holds (s_locs sv) (r_path r) r i l ->
    l_limit l = None -> l_allow l = None -> l_deny l = None -> l_try l = Some (pre ++ v :: post, fail) ->
    (forall u l0, In u pre -> In l0 (s_locs sv) -> ~ holds regex parse_ip (l_rule l0) (fmt r u) r) ->
    first_holds (s_locs sv) (fmt r v) r i' l' ->
    l_limit l' = None -> l_allow l' = None -> l_deny l' = None -> l_try l' = None -> cached same_key (loc_key l') cache = false ->
    serve l' (Request (fmt r v) (r_method r) (r_scheme r) (r_host r) (r_ip r)) w = (Ok (c, keep), w') -> c < 400 \/ 600 <= c ->
    exists s, operate servers r cache w = Some (s, Ok (Answer c (FromServe i'))) /\ t_trace s = [EvTry i; EvServe i' (fmt r v)].
  Proof.
    intros servers sv r cache w i l pre v post fail i' l' c keep w' Hs F L1 L2 L3 L4 Hpre F2 M1 M2 M3 M4 Hc Hv Hok. unfold RouteModel.operate.
    destruct (pick_server servers (host_of r)) as [sv'|] eqn:E.
    2:{ apply pick_none in E. destruct Hs as (pre0 & post0 & -> & _). destruct pre0; discriminate. }
    assert (sv' = sv) by (eapply selected_unique; [apply pick_selected; exact E|exact Hs]). subst sv'.
    unfold depth. cbn [RouteModel.deal t_deals t_path t_host]. rewrite set_host_same.
    assert (F' := find_first regex parse_ip (s_locs sv) (r_path r) (r_path r) r).
    destruct (find_loc regex parse_ip 0 (s_locs sv) [] (r_path r) (set_req_path r (r_path r))) as [[i0 l0]|].
    2:{ exfalso. destruct F as (F1 & F3 & _). apply (F' l); [eapply nth_error_In; exact F1|exact F3]. }
    destruct (first_unique _ _ _ _ _ _ _ _ _ F F') as [<- <-].
    unfold do_limit at 1, ip_gate at 1. rewrite L1, L2, L3, L4. cbn beta iota zeta. cbn [t_tried mem_nat existsb t_path].
    assert (R : set_req_path r (r_path r) = r) by (destruct r; reflexivity).
    destruct (s_locs sv) as [|x0 locs0] eqn:Q; [destruct F as [F _]; destruct i; discriminate|]. cbn [length]. rewrite <- Q in *.
    set (s0 := event (EvTry i) _). assert (S1 : t_cache s0 = cache) by reflexivity. assert (S2 : t_world s0 = w) by reflexivity. assert (S3 : t_trace s0 = [EvTry i]) by reflexivity.
    assert (S4 : t_tried s0 = [i]) by reflexivity. assert (S5 : t_host s0 = r_host r) by reflexivity. clearbody s0. clear L4. revert s0 S1 S2 S3 S4 S5.
    induction pre as [|u pre IH]; intros s0 S1 S2 S3 S4 S5; cbn [app try_all]; rewrite S5, set_host_same, R; cbn [RouteModel.deal t_deals with_path with_deals t_path t_host]; rewrite S5, set_host_same.
    - assert (G := find_first regex parse_ip (s_locs sv) (fmt r v) (fmt r v) r).
      destruct (find_loc regex parse_ip 0 (s_locs sv) [] (fmt r v) (set_req_path r (fmt r v))) as [[i1 l1]|].
      2:{ exfalso. destruct F2 as (F1 & F3 & _). apply (G l'); [eapply nth_error_In; exact F1|exact F3]. }
      destruct (first_unique _ _ _ _ _ _ _ _ _ F2 G) as [<- <-].
      unfold do_limit, ip_gate. rewrite M1, M2, M3, M4. cbn beta iota zeta. unfold handle. cbn [t_cache with_deals t_world t_path with_path t_host]. rewrite S1, Hc, S2, S5, set_host_same.
      unfold set_req_path. rewrite Hv. replace (is_error (a_status (Answer c (FromServe i')))) with false by (unfold is_error; cbn; lia).
      destruct keep; eexists; (split; [reflexivity|]); cbn; rewrite S3; reflexivity.
    - assert (G := find_first regex parse_ip (s_locs sv) (fmt r u) (fmt r u) r).
      destruct (find_loc regex parse_ip 0 (s_locs sv) [] (fmt r u) (set_req_path r (fmt r u))) as [[i1 l1]|].
      { exfalso. destruct G as (F1 & F3 & _). apply (Hpre u l1); [left; reflexivity|eapply nth_error_In; exact F1|exact F3]. }
      cbn [a_status]. change (is_error 404) with true. cbn iota. apply IH; try assumption. intros u' l1 I1. apply Hpre. right. exact I1.
  Qed.

  (* ---- C58 ---- false of the code: the remote_ip condition of a rule is never
     looked at, whatever addresses it lists *)
  Definition with_remote (g : option (list gate)) (m : matcher) : matcher :=
    Matcher (m_path m) (m_client m) g (m_host m) (m_method m) (m_scheme m).
  Theorem C58_remote_ip_refuted : forall m g path r,
    loc_match regex parse_ip (with_remote g m) path r = loc_match regex parse_ip m path r.
  Proof. reflexivity. Qed.

  (* ---- C59 ---- false of the code: a request for a location whose kept
     connection has been closed meanwhile is answered 404, although a new
     connection would have served it *)
  Theorem C59_stale_refuted : forall servers sv r cache w i l, selected servers (requested_host r) sv ->
    first_holds (s_locs sv) (r_path r) r i l ->
    l_limit l = None -> l_allow l = None -> l_deny l = None -> l_try l = None ->
    cached same_key (loc_key l) cache = true -> closed (loc_key l) w = true ->
    exists s, operate servers r cache w = Some (s, Ok (Answer 404 Own)) /\ t_trace s = [] /\ t_cache s = uncache same_key (loc_key l) cache.
  Proof.
    intros servers sv r cache w i l Hs F L1 L2 L3 L4 Hc Hv. unfold RouteModel.operate.
    destruct (pick_server servers (host_of r)) as [sv'|] eqn:E.
    2:{ apply pick_none in E. destruct Hs as (pre & post & -> & _). destruct pre; discriminate. }
    assert (sv' = sv) by (eapply selected_unique; [apply pick_selected; exact E|exact Hs]). subst sv'.
    unfold depth. cbn [RouteModel.deal t_deals t_path t_host]. rewrite set_host_same.
    assert (F' := find_first regex parse_ip (s_locs sv) (r_path r) (r_path r) r).
    destruct (find_loc regex parse_ip 0 (s_locs sv) [] (r_path r) (set_req_path r (r_path r))) as [[i' l']|].
    2:{ exfalso. destruct F as (F1 & F2 & _). apply (F' l); [eapply nth_error_In; exact F1|exact F2]. }
    destruct (first_unique _ _ _ _ _ _ _ _ _ F F') as [<- <-].
    unfold do_limit, ip_gate. rewrite L1, L2, L3, L4. cbn beta iota zeta. unfold handle.
    cbn [t_cache with_deals t_world t_path with_cache]. rewrite Hc, Hv. eexists. repeat split.
  Qed.
  (* proved: such a loss happens at most once in a row: the closed connection is
     forgotten, so the next request opens a new one *)
  Theorem C59_forgotten_partial : forall k cache, cached same_key k (uncache same_key k cache) = false.
  Proof.
    intros k cache. unfold cached, uncache. induction cache as [|x c IH]; [reflexivity|]. cbn [filter existsb].
    destruct (same_key k x) eqn:E; cbn [negb]; [exact IH|]. cbn [existsb]. rewrite E. exact IH.
  Qed.
  (* proved: a kept connection that is still open serves the request and is kept
     again; if it breaks meanwhile the request is answered 503 and it is forgotten *)
  Theorem C59_reuse_partial : forall servers sv r cache w i l o w', selected servers (requested_host r) sv ->
    first_holds (s_locs sv) (r_path r) r i l ->
    l_limit l = None -> l_allow l = None -> l_deny l = None -> l_try l = None ->
    cached same_key (loc_key l) cache = true -> closed (loc_key l) w = false -> reuse (loc_key l) r w = (o, w') ->
    (forall c, o = Some (Ok c) -> same_key (loc_key l) (loc_key l) = true ->
      exists s, operate servers r cache w = Some (s, Ok (Answer c (FromReuse i))) /\ t_trace s = [EvReuse i (r_path r)] /\
                cached same_key (loc_key l) (t_cache s) = true) /\
    (o = None -> exists s, operate servers r cache w = Some (s, Ok (Answer 503 Own)) /\ t_trace s = [EvReuse i (r_path r)] /\
                cached same_key (loc_key l) (t_cache s) = false).
  Proof.
    intros servers sv r cache w i l o w' Hs F L1 L2 L3 L4 Hc Hv Hr. unfold RouteModel.operate.
    destruct (pick_server servers (host_of r)) as [sv'|] eqn:E.
    2:{ apply pick_none in E. destruct Hs as (pre & post & -> & _). destruct pre; discriminate. }
    assert (sv' = sv) by (eapply selected_unique; [apply pick_selected; exact E|exact Hs]). subst sv'.
    unfold depth. cbn [RouteModel.deal t_deals t_path t_host]. rewrite set_host_same.
    assert (F' := find_first regex parse_ip (s_locs sv) (r_path r) (r_path r) r).
    destruct (find_loc regex parse_ip 0 (s_locs sv) [] (r_path r) (set_req_path r (r_path r))) as [[i' l']|].
    2:{ exfalso. destruct F as (F1 & F2 & _). apply (F' l); [eapply nth_error_In; exact F1|exact F2]. }
    destruct (first_unique _ _ _ _ _ _ _ _ _ F F') as [<- <-].
    unfold do_limit, ip_gate. rewrite L1, L2, L3, L4. cbn beta iota zeta. unfold handle.
    cbn [t_cache with_deals t_world t_path with_cache]. rewrite Hc, Hv.
    cbn [t_host]. rewrite ?set_host_same. replace (set_req_path r (r_path r)) with r by (destruct r; reflexivity). rewrite Hr. split.
    - intros c -> Hk. eexists. split; [reflexivity|]. split; [reflexivity|]. cbn. rewrite Hk. reflexivity.
    - intros ->. eexists. split; [reflexivity|]. split; [reflexivity|]. apply C59_forgotten_partial.
  Qed.

  (* ---- C105 ---- a websocket is opened only at a location that is configured for
     it and is the first one, of a server the Host selects, whose conditions hold *)
  Theorem C105_websocket : forall servers r l, ws_connects regex parse_ip servers r = Some l <->
    l_is_ws l = true /\
    exists pre sv post i, servers = pre ++ sv :: post /\
      (s_up_name sv = requested_host r \/ requested_host r = [] \/ post = []) /\ first_holds (s_locs sv) (r_path r) r i l /\
      (forall x l', In x pre -> s_up_name x = requested_host r \/ requested_host r = [] -> In l' (s_locs x) -> ~ holds regex parse_ip (l_rule l') (r_path r) r).
  Proof.
    intros servers r l. unfold ws_connects. change (requested_host r) with (host_of r). split.
    - intros H. destruct (ws_location regex parse_ip servers r) as [l0|] eqn:E; [|discriminate].
      destruct (l_is_ws l0) eqn:W0; [|discriminate]. injection H as ->. split; [exact W0|]. apply ws_location_ok. exact E.
    - intros (W0 & pre & sv & post & i & -> & A & F & N). rewrite (ws_location_finds regex parse_ip r pre sv post i l A F N), W0. reflexivity.
  Qed.
End Props.

(* a concrete server: /api is served by location 0 for GET only, /old tries /new
   and then itself, everything else is location 2 *)
Definition any : matcher := Matcher None None None None None None.
Definition rule (p : string) (ms : option (list text)) : matcher := Matcher (Some (txt p)) None None None ms None.
Definition loc (m : matcher) (t : option (list text * N)) (d : option (list gate)) : location := Location m None None false t None None d.
Definition demo_server : server :=
  Server (txt "a") [] [] [loc (rule "/api*" (Some [txt "GET"])) None None;
                          loc (rule "/old*" None) (Some ([txt "/old2"; txt "/none"; txt "/api"], 404)) None;
                          loc (rule "/sec*" None) None (Some [Gate (V4 7) 32])].
Definition demo_req (p m : string) (ip : string) : request := Request (txt p) (txt m) (txt "http") (Some (txt "a")) (Some (txt ip)).
Definition demo_operate (sv : list server) (r : request) :=
  option_map (fun x => (t_trace (fst x), snd x))
    (@operate unit (fun _ => None) (fun t => match t with [55] => Some (V4 7) | _ => Some (V4 9) end) (fun _ t => t) (fun _ _ w => (LimOk, w))
       (fun _ r w => (Ok (if leqb (r_path r) (txt "/old2") then 404 else 200, false), w)) (fun _ q _ => r_host q) (fun _ _ => true) (fun _ _ w => (None, w)) (fun _ _ => false) sv r [] tt).
Example C29_demo :
  demo_operate [demo_server] (demo_req "/api/x" "GET" "9") = Some ([EvServe 0 (txt "/api/x")], Ok (Answer 200 (FromServe 0))) /\
  demo_operate [demo_server] (demo_req "/api/x" "POST" "9") = Some ([], Ok (Answer 404 Own)) /\
  demo_operate [demo_server] (demo_req "/old/x" "GET" "9") =
    Some ([EvTry 1; EvServe 1 (txt "/old2"); EvServe 0 (txt "/api")], Ok (Answer 200 (FromServe 0))) /\
  demo_operate [demo_server] (demo_req "/sec/x" "GET" "7") = Some ([], Ok (Answer 503 Own)) /\
  demo_operate [demo_server] (demo_req "/sec/x" "GET" "9") = Some ([EvServe 2 (txt "/sec/x")], Ok (Answer 200 (FromServe 2))).
Proof. vm_compute. repeat split; reflexivity. Qed.
Example C31_entry_demo :
  let l := loc (rule "/old*" None) (Some ([txt "/none"] ++ txt "/api" :: [txt "/old2"], 404)) None in
  let sv := Server (txt "a") [] [] [loc (rule "/api*" None) None None; l] in
  let r := demo_req "/old/x" "GET" "9" in
  demo_operate [sv] r = Some ([EvTry 1; EvServe 0 (txt "/api")], Ok (Answer 200 (FromServe 0))) /\
  (forall l0, In l0 (s_locs sv) -> ~ holds (fun _ => None) (fun _ => None) (l_rule l0) (txt "/none") r) /\
  first_holds (fun _ => None) (fun _ => None) (s_locs sv) (r_path r) r 1 l.
Proof.
  intros l sv r. split; [vm_compute; reflexivity|]. split.
  - intros l0 [<-|[<-|[]]]; rewrite <- loc_match_ok; vm_compute; discriminate.
  - split; [reflexivity|]. split; [apply loc_match_ok; vm_compute; reflexivity|]. intros [|j] l' J H; [|lia]. injection H as <-. rewrite <- loc_match_ok. vm_compute. discriminate.
Qed.
(* /old tries /one, which its backend does not have, and then /two, for which the location
   of site a and that of the backend's address are both configured *)
Definition two_locs : list location :=
  [Location (Matcher (Some (txt "/two")) None None (Some (txt "a")) None None) None None false None None None None;
   Location (Matcher (Some (txt "/two")) None None (Some (txt "10.0.0.1:80")) None None) None None false None None None None;
   loc (rule "/one" None) None None; loc (rule "/old" None) (Some ([txt "/one"; txt "/two"], 404)) None].
Example C29_try_host_witness :
  option_map (fun x => (t_trace (fst x), snd x)) (@operate unit (fun _ => None) (fun _ => None) (fun _ t => t) (fun _ _ w => (LimOk, w))
    (fun _ r w => (Ok (if leqb (r_path r) (txt "/one") then 404 else 200, false), w)) (fun _ _ _ => Some (txt "10.0.0.1:80")) (fun _ _ => true) (fun _ _ w => (None, w)) (fun _ _ => false)
    [Server (txt "a") [] [] two_locs] (demo_req "/old" "GET" "9") [] tt) =
  Some ([EvTry 3; EvServe 2 (txt "/one"); EvServe 1 (txt "/two")], Ok (Answer 200 (FromServe 1))) /\
  (exists l, first_holds (fun _ => None) (fun _ => None) two_locs (txt "/two") (demo_req "/old" "GET" "9") 0 l) /\
  ~ exists l, first_holds (fun _ => None) (fun _ => None) two_locs (txt "/two") (demo_req "/old" "GET" "9") 1 l.
Proof.
  split; [vm_compute; reflexivity|].
  assert (F : first_holds (fun _ => None) (fun _ => None) two_locs (txt "/two") (demo_req "/old" "GET" "9") 0 (hd (loc any None None) two_locs)).
  { split; [reflexivity|]. split; [apply loc_match_ok; vm_compute; reflexivity|]. intros j l' J. lia. }
  split; [eexists; exact F|]. intros (l & G). destruct (first_unique _ _ _ _ _ _ _ _ _ F G) as [X _]. discriminate.
Qed.
(* a request from 10.1.2.3 with 10.0.0.0/8 denied *)
Example C30_network_case :
  let l := Location any None None false None None None (Some [Gate (V4 (10 * 2 ^ 24)) 8]) in
  let r := demo_req "/a" "GET" "c" in let ip := V4 (10 * 2 ^ 24 + 66051) in
  first_holds (fun _ => None) (fun _ => Some ip) [l] (r_path r) r 0 l /\ r_ip r = Some (txt "c") /\ ip_ok ip /\ cidr (V4 (10 * 2 ^ 24)) 8 ip.
Proof.
  assert (A : forall i, i < 8 -> i = 0 \/ i = 1 \/ i = 2 \/ i = 3 \/ i = 4 \/ i = 5 \/ i = 6 \/ i = 7) by lia.
  cbv zeta. split; [|split; [reflexivity|split; [reflexivity|]]].
  - split; [reflexivity|]. split; [repeat split; intros; discriminate|]. intros j l' H. lia.
  - intros i H. destruct (A i H) as [->|[->|[->|[->|[->|[->|[->| ->]]]]]]]; reflexivity.
Qed.
(* a websocket from a refused address is connected *)
Example C30_websocket_witness :
  let l := Location any None None true None None None (Some [Gate (V4 7) 32]) in
  let r := demo_req "/chat" "GET" "7" in
  ws_connects (fun _ => None) (fun _ => Some (V4 7)) [Server (txt "a") [] [] [l]] r = Some l /\ ~ permitted l (V4 7).
Proof.
  split; [vm_compute; reflexivity|]. intros [_ H]. apply (H [Gate (V4 7) 32] eq_refl). exists (Gate (V4 7) 32).
  split; [left; reflexivity|vm_compute; reflexivity].
Qed.
Example C58_witness :
  loc_match (fun _ => None) (fun _ => Some (V4 9)) (with_remote (Some [Gate (V4 7) 32]) any) (txt "/") (demo_req "/" "GET" "9") = true.
Proof. vm_compute. reflexivity. Qed.
Example C59_witness :
  let l := loc (rule "/*" None) None None in
  let r := demo_req "/x" "GET" "9" in
  option_map snd (@operate unit (fun _ => None) (fun _ => None) (fun _ t => t) (fun _ _ w => (LimOk, w))
     (fun _ r w => (Ok (200, true), w)) (fun _ q _ => r_host q) (fun _ _ => true) (fun _ _ w => (None, w)) (fun _ _ => true)
     [Server (txt "a") [] [] [l]] r [loc_key l] tt) = Some (Ok (Answer 404 Own)) /\
  option_map snd (@operate unit (fun _ => None) (fun _ => None) (fun _ t => t) (fun _ _ w => (LimOk, w))
     (fun _ r w => (Ok (200, true), w)) (fun _ q _ => r_host q) (fun _ _ => true) (fun _ _ w => (None, w)) (fun _ _ => true)
     [Server (txt "a") [] [] [l]] r [] tt) = Some (Ok (Answer 200 (FromServe 0))).
Proof. vm_compute. split; reflexivity. Qed.

Example C59_reuse_witness :
  let l := loc (rule "/*" None) None None in
  let r := demo_req "/x" "GET" "9" in
  option_map (fun x => (snd x, t_cache (fst x))) (@operate unit (fun _ => None) (fun _ => None) (fun _ t => t) (fun _ _ w => (LimOk, w))
     (fun _ r w => (Ok (200, true), w)) (fun _ q _ => r_host q) (fun _ _ => false) (fun _ _ w => (Some (Ok 204), w)) (fun _ _ => true)
     [Server (txt "a") [] [] [l]] r [loc_key l] tt) = Some (Ok (Answer 204 (FromReuse 0)), [loc_key l]).
Proof. vm_compute. reflexivity. Qed.
Example C105_witness :
  let l := Location (rule "/chat*" None) None None true None None None None in
  ws_connects (fun _ => None) (fun _ => None) [demo_server; Server (txt "b") [] [] [loc (rule "/x" None) None None; l]]
    (Request (txt "/chat/1") (txt "GET") (txt "http") (Some (txt "b")) None) = Some l /\
  ws_connects (fun _ => None) (fun _ => None) [demo_server] (demo_req "/api/x" "GET" "9") = None.
Proof. vm_compute. split; reflexivity. Qed.

(* C60: false of the code: a rule that adds a header to requests is followed
   neither on a new nor on a reused connection; a rule that adds a header to
   responses is followed only on a new one; and the Host header the backend sees
   is its own address on a new connection and the client's on a reused one *)
Theorem C60_request_rules_refuted : forall same conv connect k v h, k <> txt "host" -> ~ In k (map fst h) ->
  let rules := [CHeader OAdd true k v] in
  In k (map fst (rewrite_request same conv rules h)) /\
  ~ In k (map fst (fresh_request same connect rules h)) /\ ~ In k (map fst (reused_request connect rules h)).
Proof.
  intros same conv connect k v h Hk Hn rules. split; [|split].
  - cbn. unfold rewrite_header, rewrite_with, h_push. cbn. rewrite map_app, in_app_iff. right. left. reflexivity.
  - unfold fresh_request. destruct connect as [c|]; [|exact Hn]. unfold h_insert, h_remove. intros I.
    change (In k (txt "host" :: map fst (filter (fun kv => negb (same (txt "host") (fst kv))) h))) in I.
    destruct I as [I|I]; [congruence|]. apply in_map_iff in I. destruct I as (x & <- & I). apply filter_In in I.
    apply Hn. apply in_map. apply I.
  - exact Hn.
Qed.
Theorem C60_response_rules_refuted : forall same conv k v h, ~ In k (map fst h) ->
  let rules := [CHeader OAdd false k v] in
  In k (map fst (fresh_response same conv rules h)) /\ ~ In k (map fst (reused_response rules h)).
Proof.
  intros same conv k v h Hn rules. split; [|exact Hn].
  cbn. unfold rewrite_header, rewrite_with, h_push. cbn. rewrite map_app, in_app_iff. right. left. reflexivity.
Qed.
Theorem C60_host_refuted : forall same c rules client,
  let h := [(txt "host", client)] in
  hd_error (fresh_request same (Some c) rules h) = Some (txt "host", c) /\ reused_request (Some c) rules h = [(txt "host", client)].
Proof. intros same c rules client h. split; reflexivity. Qed.
Example C60_demo : let h := [(txt "host", txt "site.com")] in
  fresh_request leqb (Some (txt "10.0.0.1:80")) [] h = [(txt "host", txt "10.0.0.1:80")] /\
  reused_request (Some (txt "10.0.0.1:80")) [] h = h /\ txt "x-real" <> txt "host" /\ ~ In (txt "x-real") (map fst h).
Proof. repeat split; try (vm_compute; reflexivity); [vm_compute; discriminate|]. vm_compute. intros [H|[]]. discriminate. Qed.

Print Assumptions C28_wildcard_partial.
Print Assumptions C28_plain_refuted.
Print Assumptions C29_first_match_partial.
Print Assumptions C29_all_partial.
Print Assumptions C29_try_host_refuted.
Print Assumptions C29_answer.
Print Assumptions C29_none.
Print Assumptions C29_served.
Print Assumptions C30_every_use_partial.
Print Assumptions C30_refused_partial.
Print Assumptions C30_network_partial.
Print Assumptions C30_websocket_refuted.
Print Assumptions C31_terminates.
Print Assumptions C31_enough_fuel.
Print Assumptions C31_fallback.
Print Assumptions C31_entry.
Print Assumptions C58_remote_ip_refuted.
Print Assumptions C59_stale_refuted.
Print Assumptions C59_forgotten_partial.
Print Assumptions C59_reuse_partial.
Print Assumptions C105_websocket.
Print Assumptions C60_request_rules_refuted.
Print Assumptions C60_response_rules_refuted.
Print Assumptions C60_host_refuted.
