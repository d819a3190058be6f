(* Lemmas for FsProps. *)
From Coq Require Import String.
From Verif Require Import Base Text TextOps AddrModel ConfModel RouteModel RouteSpec RouteProofs InhModel ArgModel ArgProps OpModel OpSpec OpProofs OpProps FileModel FileSpec FileProofs FileProps PlModel PlSpec PlProps FsModel FsSpec.
Open Scope N_scope.

(* the robots text is only used for one path *)
Definition no_robots (c : fcfg) : fcfg :=
  FCfg (f_root c) (f_prefix c) (f_mime c) (f_ext_mime c) (f_cache c) None (f_path404 c) (f_hide c) (f_index c) (f_status c) (f_pre c) (f_nocomp c) (f_browse c) (f_cors c).
Lemma deal_robots decode date fdate seek fs cwd cwdt c q : q_path q <> txt "/robots.txt" \/ f_robots c = None ->
  FileModel.deal decode date fdate seek fs cwd cwdt c q = FileModel.deal decode date fdate seek fs cwd cwdt (no_robots c) q.
Proof.
  intros H. assert (E : (if leqb (q_path q) (txt "/robots.txt") then f_robots c else None) = None).
  { destruct (leqb (q_path q) (txt "/robots.txt")) eqn:L; [|reflexivity]. apply leqb_ok in L. destruct H; [contradiction|assumption]. }
  unfold FileModel.deal. rewrite E. cbn [f_robots no_robots].
  replace (if leqb (q_path q) (txt "/robots.txt") then @None text else None) with (@None text) by (destruct (leqb _ _); reflexivity).
  destruct c. reflexivity.
Qed.

(* what loading does to the section of file-server *)
Lemma load_one s v l : ac_servers s = [v] -> as_locs v = [l] -> match_name (al_rule l) = None ->
  exists h v', load_web s = Some h /\ ac_servers h = [v'] /\ as_locs v' = [l] /\ as_bind v' = as_bind v /\ as_ssl v' = as_ssl v /\ as_up v' = as_up v.
Proof.
  intros E1 E2 M. unfold load_web. rewrite E1. unfold ihttp_of. cbn [fill_http h_servers]. rewrite E1. cbn [map combine fst snd].
  do 2 eexists. split; [reflexivity|]. cbn [ac_servers]. split; [reflexivity|]. cbn [server_filled as_locs as_bind as_ssl as_up]. repeat (split; [|auto]).
  unfold fill_server. cbn [v_locs iserver_of v_up v_headers v_root v_comm v_upstream]. rewrite E2. cbn [map combine fst snd].
  unfold fill_location. cbn [iloc_of i_rule i_root i_file v_root v_up]. rewrite M.
  unfold loc_filled. cbn [i_rule i_file i_headers v_headers al_file al_url al_ws]. rewrite app_nil_r. destruct l as [ru fi hs u ws]. cbn [al_rule al_file al_headers al_url al_ws].
  destruct fi as [f|]; [|reflexivity]. cbn [option_map InhModel.f_root InhModel.f_prefix]. destruct f. reflexivity.
Qed.
Lemma load_keeps : keeps_addresses load_web load_streams.
Proof.
  split.
  - intros s s' [= <-]. unfold addresses, load_web. cbn [ac_servers]. cbn [fill_http h_servers ihttp_of].
    match goal with |- context [fill_server (fun x => x) ?h] => generalize h end. intros h.
    induction (ac_servers s) as [|v vs IH]; [reflexivity|]. cbn [map combine fst snd]. rewrite IH. reflexivity.
  - intros s. unfold addresses, load_streams. cbn [ac_servers]. rewrite map_map. apply map_ext. intros v. reflexivity.
Qed.

Section Gets.
  Context (decode : text -> option text) (date : text -> option N) (fdate : N -> text) (seek : option N -> N -> N -> bool)
          (fs : node) (cwd : list text) (cwdt : text)
          (regex : text -> option (text -> bool)) (parse : text -> option ipaddr) (fmt : request -> text -> text)
          (limit : lreq -> text -> list fresp -> limres * list fresp) (rehost : location -> request -> list fresp -> option text)
          (closed : RouteModel.key -> list fresp -> bool) (reuse : RouteModel.key -> request -> list fresp -> option (res unit N) * list fresp)
          (same_key : RouteModel.key -> RouteModel.key -> bool).
  Notation gets := (file_gets decode date fdate seek fs cwd cwdt regex parse fmt limit rehost closed reuse same_key).
  Notation deal_files := (FileModel.deal decode date fdate seek fs cwd cwdt).
  (* the request as the file server sees it *)
  Definition seen (r : request) (q : freq) : freq :=
    FReq (r_path r) (q_head q) (q_accept q) (q_inm q) (q_ims q) (q_accept_ranges q) (q_if_range q) (q_range q).
  Lemma gets_one h v l f port r q : ac_servers h = [v] -> as_locs v = [l] -> al_rule l = any_rule -> al_file l = Some f ->
    gets h port r q = if list_contains (as_bind v) port || list_contains (as_ssl v) port
                      then match deal_files (files_of f) (seen r q) with Ok a => Some a | _ => None end else None.
  Proof.
    intros E1 E2 E3 E4. unfold file_gets, answered. rewrite E1, E2. unfold local_servers. cbn [filter site_of s_bind s_bind_ssl].
    destruct (list_contains (as_bind v) port || list_contains (as_ssl v) port); [|reflexivity].
    unfold operate. cbn [pick_server site_of s_locs]. rewrite ?E2. cbn [map depth List.length RouteModel.deal find_loc t_deals mem_nat existsb].
    assert (M : forall p x, loc_match regex parse (al_rule l) p x = true).
    { intros p x. rewrite E3. destruct (C123_single (RevArgs [] (SAddr localhost 0) [] None false false)) as (sv & l0 & A & B & _ & _ & C & _). cbn in A. injection A as <-. cbn in B. injection B as <-. apply (C regex parse p x). }
    cbn [route_of l_rule]. rewrite M.
    cbn [do_limit route_of l_limit ip_gate l_allow l_deny l_try]. unfold handle. cbn [cached existsb t_cache with_deals t_world t_path t_host set_req_path set_host r_path].
    unfold serve_files, loc_answer. rewrite E4. cbn [set_req_path set_host r_path]. fold (seen r q).
    destruct (deal_files (files_of f) (seen r q)); reflexivity.
  Qed.
End Gets.

(* ---- the file server of the command ---- *)
Lemma resolve_join t cwd p dn i : resolve t cwd p = Some dn -> is_dir_at t dn = true -> name_ok i ->
  resolve t cwd (join p i) = match at_names t (dn ++ [i]) with Some _ => Some (dn ++ [i]) | None => None end.
Proof.
  intros R D NW. assert (AN : absolute i = false). { destruct NW as (_ & _ & _ & N4). destruct (absolute i) eqn:Q; [|reflexivity]. apply starts_ok in Q. destruct Q as (y & ->). destruct N4. left. reflexivity. }
  assert (SN : split_on 47 i = [i]) by (apply split_on_one, no_in; apply NW).
  assert (ST : path_walk t dn [i] = match at_names t (dn ++ [i]) with Some _ => Some (dn ++ [i]) | None => None end).
  { cbn [path_walk]. unfold path_step. rewrite D. destruct NW as (N1 & N2 & N3 & _).
    destruct (leqb i []) eqn:L1; [apply leqb_ok in L1; contradiction|]. destruct (leqb i (txt ".")) eqn:L2; [apply leqb_ok in L2; contradiction|].
    destruct (leqb i (txt "..")) eqn:L3; [apply leqb_ok in L3; contradiction|]. cbn [orb]. destruct (at_names t (dn ++ [i])); reflexivity. }
  unfold join. rewrite AN. destruct p as [|c0 s0]; [discriminate R|]. destruct (ends_with (txt "/") (c0 :: s0)) eqn:EW.
  - apply ends_slash in EW. destruct EW as (y & EW). rewrite EW in *. destruct y as [|y0 y].
    + cbn [app] in *. unfold resolve in *. change (absolute [47]) with true in R. cbv iota in R. change (split_on 47 [47]) with [@nil N; []] in R. cbn [app] in *.
      assert (A2 : absolute (47 :: i) = true) by (apply absolute_ok; eauto). rewrite A2. rewrite split_on_cons.
      cbn [path_walk] in R. unfold path_step in R. destruct (is_dir_at t []) eqn:D0; [|cbn in R; discriminate R]. cbn [leqb orb] in R. rewrite D0 in R. injection R as <-.
      cbn [path_walk]. unfold path_step at 1. rewrite D0. cbn [leqb orb]. rewrite SN. exact ST.
    + rewrite <- app_assoc. cbn [app] in *. unfold resolve in *.
      change (y0 :: y ++ [47]) with ((y0 :: y) ++ 47 :: []) in R. change (y0 :: y ++ 47 :: i) with ((y0 :: y) ++ 47 :: i). rewrite absolute_app in * by discriminate. rewrite split_on_gen, walk_app in *.
      destruct (path_walk t (if absolute (y0 :: y) then [] else cwd) (split_on 47 (y0 :: y))) as [cur|]; [|discriminate R]. rewrite SN.
      change (split_on 47 []) with [@nil N] in R. cbn [path_walk] in R. unfold path_step in R. destruct (is_dir_at t cur); [|discriminate]. cbn in R. injection R as ->. exact ST.
  - change (txt "/" ++ i) with (47 :: i). rewrite (resolve_under _ _ _ _ _ R), SN. exact ST.
Qed.

Section Command.
  Context (decode : text -> option text) (date : text -> option N) (fdate : N -> text) (seek : option N -> N -> N -> bool)
          (fs : node) (cwd : list text) (cwdt : text) (root : option text) (cache : option N) (robots p404 : option text) (cors : bool).
  Let c := files_of (AFile root [] [] cache robots p404 [] true cors).
  Let d := root_of cwdt c.
  Notation deal_c := (FileModel.deal decode date fdate seek fs cwd cwdt c).
  Notation by_c := (by_file date fdate seek fs cwd c).
  Lemma cmd_deal q x : q_path q = 47 :: x -> ~ In 37 (q_path q) -> q_path q <> txt "/robots.txt" \/ robots = None ->
    deal_c q =
      let real := if is_dir fs cwd (d ++ 47 :: x) then find_index fs cwd [txt "index.html"; txt "index.htm"] (d ++ 47 :: x) else d ++ 47 :: x in
      match (if is_dir fs cwd real then resolve fs cwd real else None) with
      | Some ns => if strip_fails fs c d real ns then Panic
                   else Ok (FResp 200 [(txt "Content-Type", txt "text/html; charset=utf-8")] (BList ns (list_dir fs c d real ns)))
      | None => do o <- by_c q real ; match o with Some r => Ok r | None => ret_error date fdate seek fs cwd c q (txt "can't view file") end
      end.
  Proof.
    intros P NP RB. unfold FileModel.deal.
    replace (if leqb (q_path q) (txt "/robots.txt") then f_robots c else None) with (@None text).
    2:{ destruct (leqb (q_path q) (txt "/robots.txt")) eqn:L; [|reflexivity]. apply leqb_ok in L. destruct RB as [RB|RB]; [contradiction|]. unfold c. cbn. now rewrite RB. }
    change (f_prefix c) with (@nil N). replace (starts_with [] (q_path q)) with true by (symmetry; apply starts_ok; exists (q_path q); reflexivity).
    unfold decoded. apply contains_percent in NP. rewrite NP. replace (strip_prefix [] (q_path q)) with (Some (47 :: x)) by (symmetry; apply strip_prefix_some; exact P).
    replace (starts_with (txt "/") (47 :: x)) with true by (symmetry; apply starts_ok; exists x; reflexivity). fold d.
    rewrite prefix_always. change (is_hide c d) with false. cbn [negb orb]. change (f_index c) with [txt "index.html"; txt "index.htm"]. change (f_browse c) with true. change (f_nocomp c) with false.
    cbv zeta. change (is_hide c (q_path q)) with false. reflexivity.
  Qed.
  Lemma by_plain q real ns content mt : unconditional q -> q_head q = false -> resolve fs cwd real = Some ns -> at_names fs ns = Some (File content mt) ->
    exists r, by_c q real = Ok (Some r) /\ s_status r = 200 /\ s_body r = BFile ns content None.
  Proof.
    intros U HD R A. unfold by_file. replace (match q_accept q with Some a => find_pre fs cwd (f_pre c) a real | None => None end) with (@None (text * list text)) by (destruct (q_accept q); reflexivity).
    rewrite R. destruct (send_plain date fdate seek fs c q (get_mimetype c (FileModel.extension real)) ns None content mt U HD A) as (r & E & S1 & S2). rewrite E. exists r. cbn [rbind]. auto.
  Qed.
  Lemma by_none q real : resolve fs cwd real = None -> by_c q real = Ok None.
  Proof. intros R. unfold by_file. replace (match q_accept q with Some a => find_pre fs cwd (f_pre c) a real | None => None end) with (@None (text * list text)) by (destruct (q_accept q); reflexivity). now rewrite R. Qed.

  Lemma cmd_file q x ns content mt : q_path q = 47 :: x -> ~ In 37 (q_path q) -> q_path q <> txt "/robots.txt" \/ robots = None ->
    unconditional q -> q_head q = false -> resolve fs cwd (d ++ 47 :: x) = Some ns -> at_names fs ns = Some (File content mt) ->
    exists r, deal_c q = Ok r /\ s_status r = 200 /\ s_body r = BFile ns content None.
  Proof.
    intros P NP RB U HD R A. rewrite (cmd_deal _ _ P NP RB). assert (ND : is_dir fs cwd (d ++ 47 :: x) = false) by (unfold is_dir; rewrite R; unfold is_dir_at; now rewrite A).
    rewrite ND. cbv zeta. rewrite ND. destruct (by_plain q _ _ _ _ U HD R A) as (r & -> & S1 & S2). exists r. cbn [rbind]. auto.
  Qed.
  Lemma cmd_index q x dn i content mt : q_path q = 47 :: x -> ~ In 37 (q_path q) -> q_path q <> txt "/robots.txt" \/ robots = None ->
    unconditional q -> q_head q = false -> resolve fs cwd (d ++ 47 :: x) = Some dn -> at_names fs (dn ++ [i]) = Some (File content mt) ->
    i = txt "index.html" \/ i = txt "index.htm" /\ at_names fs (dn ++ [txt "index.html"]) = None -> is_dir_at fs dn = true ->
    exists r, deal_c q = Ok r /\ s_status r = 200 /\ s_body r = BFile (dn ++ [i]) content None.
  Proof.
    intros P NP RB U HD R A I D. rewrite (cmd_deal _ _ P NP RB). assert (DD : is_dir fs cwd (d ++ 47 :: x) = true) by (unfold is_dir; rewrite R; exact D).
    assert (N1 : name_ok (txt "index.html")) by (repeat split; try discriminate; vm_compute; intuition discriminate).
    assert (N2 : name_ok (txt "index.htm")) by (repeat split; try discriminate; vm_compute; intuition discriminate).
    assert (NI : name_ok i) by (destruct I as [->|(-> & _)]; assumption).
    assert (RI : resolve fs cwd (join (d ++ 47 :: x) i) = Some (dn ++ [i])) by (rewrite (resolve_join _ _ _ _ _ R D NI), A; reflexivity).
    rewrite DD. cbv zeta. assert (F : find_index fs cwd [txt "index.html"; txt "index.htm"] (d ++ 47 :: x) = join (d ++ 47 :: x) i).
    { destruct I as [->|(-> & NO)]; cbn [find_index]; [now rewrite RI|]. assert (J1 := resolve_join _ _ _ _ _ R D N1). unfold bytes, text in *. rewrite NO in J1. rewrite J1, RI. reflexivity. }
    rewrite F. assert (ND : is_dir fs cwd (join (d ++ 47 :: x) i) = false) by (unfold is_dir; rewrite RI; unfold is_dir_at; now rewrite A).
    rewrite ND. destruct (by_plain q _ _ _ _ U HD RI A) as (r & -> & S1 & S2). exists r. cbn [rbind]. auto.
  Qed.
  Lemma cmd_listing q x dn es : q_path q = 47 :: x -> ~ In 37 (q_path q) -> q_path q <> txt "/robots.txt" \/ robots = None -> names_wf fs ->
    resolve fs cwd (d ++ 47 :: x) = Some dn -> at_names fs dn = Some (Dir es) ->
    at_names fs (dn ++ [txt "index.html"]) = None -> at_names fs (dn ++ [txt "index.htm"]) = None ->
    exists r links, deal_c q = Ok r /\ s_status r = 200 /\ s_body r = BList dn links /\ map snd links = map fst es.
  Proof.
    intros P NP RB WF R A I1 I2. rewrite (cmd_deal _ _ P NP RB). assert (D : is_dir_at fs dn = true) by (unfold is_dir_at; now rewrite A).
    assert (DD : is_dir fs cwd (d ++ 47 :: x) = true) by (unfold is_dir; rewrite R; exact D).
    assert (N1 : name_ok (txt "index.html")) by (repeat split; try discriminate; vm_compute; intuition discriminate).
    assert (N2 : name_ok (txt "index.htm")) by (repeat split; try discriminate; vm_compute; intuition discriminate).
    rewrite DD. cbv zeta. assert (F : find_index fs cwd [txt "index.html"; txt "index.htm"] (d ++ 47 :: x) = d ++ 47 :: x).
    { assert (J1 := resolve_join _ _ _ _ _ R D N1). assert (J2 := resolve_join _ _ _ _ _ R D N2). unfold bytes, text in *. rewrite I1 in J1. rewrite I2 in J2. cbn [find_index]. rewrite J1, J2. reflexivity. }
    rewrite F, DD, R. replace (strip_fails fs c d (d ++ 47 :: x) dn) with false.
    2:{ symmetry. unfold strip_fails. apply not_true_iff_false. intros E. apply existsb_exists in E as (n & I & E). apply andb_true_iff in E as (_ & E). apply negb_true_iff in E.
        unfold entries in I. assert (NW := WF dn n I). assert (AN : absolute n = false). { destruct NW as (_ & _ & _ & N4). destruct (absolute n) eqn:Q; [|reflexivity]. apply starts_ok in Q. destruct Q as (y & ->). destruct N4. left. reflexivity. }
        destruct (join_under d x n AN) as (z & Z). rewrite Z, prefix_always in E. discriminate E. }
    do 2 eexists. split; [reflexivity|]. split; [reflexivity|]. split; [reflexivity|]. unfold list_dir. rewrite map_map. cbn [snd]. rewrite map_id. unfold entries. rewrite A.
    induction (map fst es) as [|n l IH]; [reflexivity|]. cbn [filter]. change (is_hide c (join (d ++ 47 :: x) n)) with false. cbn [negb]. now rewrite IH.
  Qed.
  Lemma cmd_missing q x : q_path q = 47 :: x -> ~ In 37 (q_path q) -> q_path q <> txt "/robots.txt" \/ robots = None ->
    resolve fs cwd (d ++ 47 :: x) = None ->
    (p404 = None -> exists r, deal_c q = Ok r /\ s_status r = 404) /\
    (forall p ns content mt, p404 = Some p -> unconditional q -> q_head q = false -> resolve fs cwd p = Some ns -> at_names fs ns = Some (File content mt) ->
       exists r, deal_c q = Ok r /\ s_status r = 200 /\ s_body r = BFile ns content None).
  Proof.
    intros P NP RB R. assert (ND : is_dir fs cwd (d ++ 47 :: x) = false) by (unfold is_dir; now rewrite R). split.
    - intros E. rewrite (cmd_deal _ _ P NP RB), ND. cbv zeta. rewrite ND, (by_none _ _ R). cbn [rbind]. unfold ret_error. change (f_path404 c) with p404. rewrite E. eexists. split; reflexivity.
    - intros p ns content mt E U HD Rp A. rewrite (cmd_deal _ _ P NP RB), ND. cbv zeta. rewrite ND, (by_none _ _ R). cbn [rbind]. unfold ret_error. change (f_status c =? 404) with true. change (f_path404 c) with p404. rewrite E.
      destruct (by_plain q _ _ _ _ U HD Rp A) as (r & -> & S1 & S2). eauto.
  Qed.
  Lemma cmd_robots q t : q_path q = txt "/robots.txt" -> robots = Some t -> exists r, deal_c q = Ok r /\ s_status r = 200 /\ s_body r = BText t.
  Proof.
    intros P E. unfold FileModel.deal. rewrite P. change (leqb (txt "/robots.txt") (txt "/robots.txt")) with true. change (f_robots c) with robots. rewrite E.
    eexists. split; [reflexivity|]. rewrite plain_status, plain_body. split; reflexivity.
  Qed.
  Lemma cmd_inside q r ns rn : deal_c q = Ok r -> shows r ns -> resolve fs cwd d = Some rn -> ~ occurs (txt "..") (decoded decode (q_path q)) ->
    below rn ns \/ exists p sfx, p404 = Some p /\ In sfx [[]; txt ".gz"; txt ".br"] /\ resolve fs cwd (p ++ sfx) = Some ns.
  Proof.
    intros E SH R NO. assert (IX : forall i, In i (f_index c) -> absolute i = false /\ ~ occurs (txt "..") i).
    { intros i [<-|[<-|[]]]; (split; [reflexivity|]); intros O; apply contains_ok in O; vm_compute in O; discriminate O. }
    destruct (C37_inside_partial _ _ _ _ _ _ _ _ _ _ _ _ E SH R NO IX) as [B|(p & sfx & P4 & IS & RP)]; [now left|]. right. exists p, sfx. split; [exact P4|split; assumption].
  Qed.
End Command.
