(* C37-C40, C67-C72: the file server. *)
From Coq Require Import String.
From Verif Require Import Base Text TextOps FileModel FileSpec FileProofs.
Open Scope N_scope.

Definition get (p : text) : freq := FReq p false None None None None None None.
(* the error page of the configuration, or its compressed form *)
Definition error_page (fs : node) (cwd : list text) (c : fcfg) (ns : list text) : Prop :=
  exists p sfx, f_path404 c = Some p /\ In sfx [[]; txt ".gz"; txt ".br"] /\ resolve fs cwd (p ++ sfx) = Some ns.

(* ---- C37 ------------------------------------------------------------------------- *)
(* what is shown is below the root, if .. occurs neither in the request path (after
   decoding) nor in the configured index names *)
Theorem C37_inside_partial : forall decode date fmt seek fs cwd cwdt c q r ns rn,
  deal decode date fmt seek fs cwd cwdt c q = Ok r -> shows r ns ->
  resolve fs cwd (root_of cwdt c) = Some rn ->
  ~ occurs (txt "..") (decoded decode (q_path q)) ->
  (forall i, In i (f_index c) -> absolute i = false /\ ~ occurs (txt "..") i) ->
  below rn ns \/ error_page fs cwd c ns.
Proof.
  intros decode date fmt seek fs cwd cwdt c q r ns rn D S R NO IX.
  destruct (deal_shows _ _ _ _ _ _ _ _ _ _ _ D S) as [E|(h & x & real & P & HX & _ & RC & B)]; [right; exact E|left].
  assert (NX : ~ In (txt "..") (split_on 47 x)).
  { intros I. apply split_occurs in I. apply NO. rewrite P. eapply occurs_trans; [exact I|]. destruct HX as [-> | ->].
    - exists (f_prefix c ++ [47]), []. rewrite <- app_assoc, app_nil_r. reflexivity.
    - apply occurs_r. }
  assert (Y : exists y, real = root_of cwdt c ++ 47 :: y /\ ~ In (txt "..") (split_on 47 y)).
  { destruct RC as [->|(i & I & ->)]; [eauto|]. destruct (IX i I) as (A & NI). destruct (join_shape (root_of cwdt c) x i A) as (y & E & F). exists y. split; [exact E|].
    intros J. destruct (F _ J) as [K|K]; [contradiction|]. apply split_occurs in K. contradiction. }
  destruct Y as (y & -> & NY).
  assert (W : exists sfx, In sfx suffixes /\ resolve fs cwd ((root_of cwdt c ++ 47 :: y) ++ sfx) = Some ns).
  { destruct B as [(a & b & sfx & _ & I & W & _)|(_ & W)]; [eauto|]. exists []. rewrite app_nil_r. split; [left; reflexivity|exact W]. }
  destruct W as (sfx & I & W). rewrite <- app_assoc in W. cbn [app] in W. rewrite (resolve_under _ _ _ _ _ R) in W.
  eapply walk_below; [|exact W]. intros J. destruct (split_sfx _ _ _ _ (suffix_no_slash _ I) J) as [K|(p' & K)]; [contradiction|].
  assert (sfx = []) by (eapply dotdot_sfx; eauto). subst sfx. rewrite app_nil_r in J. contradiction.
Qed.
(* the code's own check never refuses anything: every path built from the root passes *)
Theorem C37_check_void : forall root href, path_starts_with (root ++ txt "/" ++ href) root = true.
Proof. intros. apply prefix_always. Qed.

Lemma up_no_percent k : ~ In 37 (up_text k).
Proof. induction k as [|k IH]; cbn [up_text]; [tauto|]. change (txt "/..") with [47; 46; 46]. cbn [app In]. intros [?|[?|[?|?]]]; try discriminate; auto. Qed.
Lemma no_hide c p : f_hide c = [] -> is_hide c p = false. Proof. unfold is_hide. intros ->. reflexivity. Qed.
(* false of the code: every file of the machine can be fetched, whatever the root *)
Theorem C37_anyfile_refuted : forall decode date fmt seek fs cwd cwdt c rn ns content mt,
  resolve fs cwd (root_of cwdt c) = Some rn -> is_dir_at fs rn = true ->
  at_names fs ns = Some (File content mt) -> Forall name_ok ns -> ns <> [] ->
  f_hide c = [] -> f_robots c = None -> f_pre c = [] -> ~ In 37 (f_prefix c ++ full_path ns) ->
  exists p r, deal decode date fmt seek fs cwd cwdt c (get (f_prefix c ++ p)) = Ok r /\ s_status r = 200 /\ s_body r = BFile ns content None.
Proof.
  intros decode date fmt seek fs cwd cwdt c rn ns content mt R D A F NE HN RB PN NP.
  set (k := length rn). exists (47 :: up_text k ++ full_path ns).
  assert (W : resolve fs cwd (root_of cwdt c ++ 47 :: (up_text k ++ full_path ns)) = Some ns).
  { rewrite (resolve_under _ _ _ _ _ R). destruct ns as [|n ns']; [congruence|]. cbn [full_path].
    rewrite split_up, walk_app. match goal with |- context [path_walk fs rn ?p] => assert (U : path_walk fs rn p = Some []) end.
    { assert (Z : forall rest, path_walk fs rn ([] :: rest) = path_walk fs rn rest). { intros rest. cbn [path_walk]. unfold path_step. rewrite D. reflexivity. }
      assert (V : path_walk fs rn (ups k) = Some []) by (apply walk_ups; [unfold k; lia|exact D]).
      destruct k; rewrite Z; exact V. }
    rewrite U. assert (SP : split_on 47 (n ++ full_path ns') = n :: ns').
    { assert (X := split_full (n :: ns') F ltac:(discriminate)). cbn [full_path] in X. rewrite split_on_cons in X. congruence. }
    rewrite SP. exact (walk_names_down fs (n :: ns') [] _ F A). }
  assert (NPP : ~ In 37 (q_path (get (f_prefix c ++ 47 :: up_text k ++ full_path ns)))).
  { cbn [get q_path]. intros I. apply in_app_iff in I. destruct I as [I|I]; [apply NP; apply in_app_iff; auto|]. destruct I as [I|I]; [discriminate|].
    apply in_app_iff in I. destruct I as [I|I]; [exact (up_no_percent k I)|]. apply NP. apply in_app_iff. auto. }
  rewrite (deal_plain date fmt seek fs cwd decode cwdt c (get (f_prefix c ++ 47 :: up_text k ++ full_path ns)) (up_text k ++ full_path ns) ns content mt) by (auto using no_hide).
  unfold by_file. cbn [get q_accept]. rewrite W.
  destruct (send_plain date fmt seek fs c (get (f_prefix c ++ 47 :: up_text k ++ full_path ns)) (get_mimetype c (extension (root_of cwdt c ++ 47 :: up_text k ++ full_path ns))) ns None content mt) as (r & E & S1 & S2); [repeat split|reflexivity|exact A|].
  cbn [get q_path] in E. exists r. rewrite E. cbn [rbind]. auto.
Qed.
(* false of the code even for paths without a .. segment: the text left after the
   prefix gets its own slash, so /static../x leaves the root directory *)
Theorem C37_alias_refuted : forall decode date fmt seek fs cwd cwdt c rn n ns content mt,
  resolve fs cwd (root_of cwdt c) = Some rn -> is_dir_at fs rn = true ->
  at_names fs (removelast rn ++ n :: ns) = Some (File content mt) -> Forall name_ok (n :: ns) ->
  f_hide c = [] -> f_robots c = None -> f_pre c = [] -> ~ In 37 (f_prefix c ++ full_path (n :: ns)) ->
  exists r, deal decode date fmt seek fs cwd cwdt c (get (f_prefix c ++ txt ".." ++ full_path (n :: ns))) = Ok r /\ s_status r = 200 /\ s_body r = BFile (removelast rn ++ n :: ns) content None.
Proof.
  intros decode date fmt seek fs cwd cwdt c rn n ns content mt R D A F HN RB PN NP.
  set (x := txt ".." ++ full_path (n :: ns)). set (q := get (f_prefix c ++ x)).
  assert (W : resolve fs cwd (root_of cwdt c ++ 47 :: x) = Some (removelast rn ++ n :: ns)).
  { rewrite (resolve_under _ _ _ _ _ R). unfold x. cbn [full_path]. change (txt ".." ++ 47 :: n ++ full_path ns) with ([46; 46] ++ 47 :: (n ++ full_path ns)). rewrite split_on_app by reflexivity.
    assert (SP : split_on 47 (n ++ full_path ns) = n :: ns).
    { assert (X := split_full (n :: ns) F ltac:(discriminate)). cbn [full_path] in X. rewrite split_on_cons in X. congruence. }
    rewrite SP. change [46; 46] with (txt ".."). cbn [path_walk]. unfold path_step at 1. rewrite D. change (leqb (txt "..") [] || leqb (txt "..") (txt ".")) with false. rewrite leqb_refl. cbv iota.
    exact (walk_names_down fs (n :: ns) (removelast rn) _ F A). }
  unfold deal. cbn [get q_path]. rewrite RB. replace (if leqb (q_path q) (txt "/robots.txt") then @None text else None) with (@None text) by (destruct (leqb _ _); reflexivity).
  replace (starts_with (f_prefix c) (f_prefix c ++ x)) with true by (symmetry; apply starts_ok; eauto).
  assert (NPP : contains (txt "%") (f_prefix c ++ x) = false).
  { apply contains_percent. intros I. apply in_app_iff in I. destruct I as [I|I]; [apply NP; apply in_app_iff; auto|]. unfold x in I. apply in_app_iff in I. destruct I as [I|I]; [|apply NP; apply in_app_iff; auto].
    change (txt "..") with [46; 46] in I. destruct I as [I|[I|[]]]; discriminate. }
  unfold q. cbn [get q_path]. unfold decoded. rewrite NPP. replace (strip_prefix (f_prefix c) (f_prefix c ++ x)) with (Some x) by (symmetry; apply strip_prefix_some; reflexivity).
  replace (starts_with (txt "/") x) with false by reflexivity. change (txt "/" ++ x) with (47 :: x). rewrite prefix_always, !no_hide by exact HN. cbn [negb orb].
  assert (ND : is_dir fs cwd (root_of cwdt c ++ 47 :: x) = false). { unfold is_dir. rewrite W. unfold is_dir_at. now rewrite A. }
  rewrite ND. rewrite ND. unfold by_file. cbn [get q_accept]. rewrite W.
  destruct (send_plain date fmt seek fs c (get (f_prefix c ++ x)) (get_mimetype c (extension (root_of cwdt c ++ 47 :: x))) (removelast rn ++ n :: ns) None content mt) as (r & E & S1 & S2); [repeat split|reflexivity|exact A|].
  exists r. rewrite E. cbn [rbind]. replace (starts_with (f_prefix c) (f_prefix c ++ x)) with true by (symmetry; apply starts_ok; eauto). auto.
Qed.

(* an example tree: /etc/passwd and /srv/www/{index.html, sub/a.txt} *)
Definition ex_fs : node := Dir [
  (txt "etc", Dir [(txt "passwd", File [1; 2; 3] (Some 100))]);
  (txt "srv", Dir [(txt "www", Dir [(txt "index.html", File [7; 7] (Some 50)); (txt "sub", Dir [(txt "a.txt", File [9; 9; 9; 9] (Some 60)); (txt "a.txt.gz", File [5] (Some 61))])])])].
Definition ex_cfg : fcfg := FCfg (Some (txt "/srv/www")) (txt "/static") (txt "application/octet-stream") [] None None None [] [txt "index.html"] 404 [] false true false.
Definition no_decode (_ : text) : option text := None.
Definition no_date (_ : text) : option N := None.
Definition ex_deal := deal no_decode no_date (fun _ => []) (fun _ _ _ => true) ex_fs [] (txt "/").
Example C37_example :
  resolve ex_fs [] (root_of (txt "/") ex_cfg) = Some [txt "srv"; txt "www"] /\ is_dir_at ex_fs [txt "srv"; txt "www"] = true /\
  (exists r, ex_deal ex_cfg (get (txt "/static/sub/a.txt")) = Ok r /\ s_body r = BFile [txt "srv"; txt "www"; txt "sub"; txt "a.txt"] [9; 9; 9; 9] None) /\
  (exists r, ex_deal ex_cfg (get (txt "/static/sub")) = Ok r /\ shows r [txt "srv"; txt "www"; txt "sub"]) /\
  (exists r, ex_deal ex_cfg (get (txt "/static/../../etc/passwd")) = Ok r /\ s_body r = BFile [txt "etc"; txt "passwd"] [1; 2; 3] None).
Proof. vm_compute. repeat split; eexists; (split; [reflexivity|]); try reflexivity. right. eexists. reflexivity. Qed.

(* ---- C38 ------------------------------------------------------------------------- *)
(* the path of nothing shown contains a hidden pattern, if the patterns have no
   slash, the root is absolute and there are no index and precompressed files *)
Theorem C38_hidden_partial : forall decode date fmt seek fs cwd cwdt c q r ns h,
  deal decode date fmt seek fs cwd cwdt c q = Ok r -> In h (f_hide c) -> h <> [] -> ~ In 47 h -> absolute (root_of cwdt c) = true ->
  (f_pre c = [] \/ q_accept q = None) -> f_index c = [] -> names_wf fs ->
  (forall content part, s_body r = BFile ns content part -> ~ occurs h (full_path ns) \/ error_page fs cwd c ns) /\
  (forall links l n, s_body r = BList ns links -> In (l, n) links -> ~ occurs h (full_path (ns ++ [n])) \/ error_page fs cwd c ns).
Proof.
  intros decode date fmt seek fs cwd cwdt c q r ns h D IH NE NS AB NPre NIx WF.
  assert (K : forall x, resolve fs cwd (root_of cwdt c ++ 47 :: x) = Some ns -> occurs h (full_path ns) -> is_hide c (root_of cwdt c) = false -> occurs h x).
  { intros x R O HR. destruct (occurs_name _ _ NS NE O) as (n & I & On). 
    assert (W : resolve fs cwd (root_of cwdt c ++ 47 :: x) = path_walk fs [] (split_on 47 (root_of cwdt c) ++ split_on 47 x)).
    { unfold resolve. destruct (root_of cwdt c) as [|a b] eqn:E; [discriminate|]. change ((a :: b) ++ 47 :: x) with (a :: (b ++ 47 :: x)) at 1. cbv iota. rewrite absolute_app by discriminate. rewrite AB. now rewrite split_on_gen. }
    rewrite W in R. destruct (walk_names _ _ _ _ _ R I) as [[]|J]. apply in_app_iff in J. destruct J as [J|J]; apply split_occurs in J; [|eapply occurs_trans; eauto].
    exfalso. rewrite hide_none in HR. eapply HR; [exact IH|]. eapply occurs_trans; eauto. }
  split.
  - intros content part B. destruct (deal_shows _ _ _ _ _ _ _ _ _ _ ns D) as [E|(h' & x & real & P & HX & HR & RC & X)]; [left; eauto|right; exact E|left].
    destruct RC as [->|(i & I & _)]; [|rewrite NIx in I; destruct I].
    destruct X as [(a & b & sfx & _ & _ & W & Z & HP)|(B' & _)]; [|congruence]. rewrite (Z NPre), app_nil_r in W. intros O. apply (K x) in O; [|exact W|exact HR].
    rewrite hide_none in HP. eapply HP; [exact IH|]. rewrite P. eapply occurs_trans; [exact O|]. destruct HX as [-> | ->].
    + exists (f_prefix c ++ [47]), []. rewrite <- app_assoc, app_nil_r. reflexivity.
    + apply occurs_r.
  - intros links l n B IL. destruct (deal_shows _ _ _ _ _ _ _ _ _ _ ns D) as [E|(h' & x & real & P & HX & HR & RC & X)]; [right; eauto|right; exact E|left].
    destruct RC as [->|(i & I & _)]; [|rewrite NIx in I; destruct I].
    destruct X as [(a & b & sfx & B' & _)|(B' & W)]; [congruence|]. rewrite B in B'. injection B' as ->.
    unfold list_dir in IL. apply in_map_iff in IL. destruct IL as (n' & E & I). injection E as _ ->. apply filter_In in I. destruct I as (En & I). apply negb_true_iff in I.
    rewrite hide_none in I. intros O. apply (I h IH). destruct (occurs_name _ _ NS NE O) as (m & Im & Om). 
    assert (AN : absolute n = false).
    { destruct (WF ns n) as (_ & _ & _ & N4); [exact En|]. destruct (absolute n) eqn:A; [|reflexivity]. apply starts_ok in A. destruct A as (y & ->). destruct N4. left. reflexivity. }
    assert (JL : occurs (root_of cwdt c ++ 47 :: x) (join (root_of cwdt c ++ 47 :: x) n)).
    { unfold join. rewrite AN. destruct (root_of cwdt c ++ 47 :: x) as [|c0 s0]; [exists [], n; reflexivity|]. destruct (ends_with (txt "/") (c0 :: s0)); apply occurs_l. }
    assert (JN : occurs n (join (root_of cwdt c ++ 47 :: x) n)).
    { unfold join. rewrite AN. destruct (root_of cwdt c ++ 47 :: x) as [|c0 s0]; [apply occurs_refl|]. destruct (ends_with (txt "/") (c0 :: s0)); [apply occurs_r|]. rewrite app_assoc. apply occurs_r. }
    apply in_app_iff in Im. destruct Im as [Im|[->|[]]]; [|eapply occurs_trans; eauto].
    assert (ON : occurs h (full_path ns)). { eapply occurs_trans; [exact Om|]. clear - Im. induction ns as [|y ns IH]; [destruct Im|]. cbn [full_path]. destruct Im as [->|Im]; [exists [47], (full_path ns); reflexivity|]. eapply occurs_trans; [apply IH; exact Im|]. exists (47 :: y), []. now rewrite app_nil_r. }
    apply (K x) in ON; [|exact W|exact HR].
    eapply occurs_trans; [exact ON|]. eapply occurs_trans; [|exact JL]. exists (root_of cwdt c ++ [47]), []. rewrite <- app_assoc, app_nil_r. reflexivity.
Qed.
Example ex_names : names_wf ex_fs. Proof. apply tree_okb_ok. reflexivity. Qed.
Example C38_example :
  let c := FCfg (Some (txt "/srv/www")) (txt "/static") [] [] None None None [txt "a.t"] [] 404 [] false true false in
  (exists r, ex_deal c (get (txt "/static/sub/a.txt")) = Ok r /\ s_status r = 404) /\
  (exists r, ex_deal c (get (txt "/static/sub")) = Ok r /\ s_body r = BList [txt "srv"; txt "www"; txt "sub"] []) /\
  (exists r, ex_deal c (get (txt "/static/")) = Ok r /\ s_body r = BList [txt "srv"; txt "www"] [(txt "/static/index.html", txt "index.html"); (txt "/static/sub", txt "sub")]).
Proof. vm_compute. repeat split; eexists; (split; [reflexivity|]); reflexivity. Qed.
(* false of the code: a hidden index file is served for its directory *)
Theorem C38_index_refuted : forall decode date fmt seek fs cwd cwdt c q x dn i ixs ns content mt,
  q_path q = f_prefix c ++ 47 :: x -> f_robots c = None -> ~ In 37 (q_path q) -> unconditional q -> q_head q = false -> f_pre c = [] ->
  unhidden c (root_of cwdt c) -> unhidden c (q_path q) ->
  resolve fs cwd (root_of cwdt c ++ 47 :: x) = Some dn -> is_dir_at fs dn = true ->
  f_index c = i :: ixs -> resolve fs cwd (join (root_of cwdt c ++ 47 :: x) i) = Some ns -> at_names fs ns = Some (File content mt) ->
  In i (f_hide c) ->
  exists r, deal decode date fmt seek fs cwd cwdt c q = Ok r /\ s_status r = 200 /\ s_body r = BFile ns content None.
Proof.
  intros decode date fmt seek fs cwd cwdt c q x dn i ixs ns content mt P RB NP U HD PN H1 H2 R D IX RI A _. apply hide_none in H1, H2.
  unfold deal. rewrite RB. replace (if leqb (q_path q) (txt "/robots.txt") then @None text else None) with (@None text) by (destruct (leqb _ _); reflexivity).
  replace (starts_with (f_prefix c) (q_path q)) with true by (symmetry; apply starts_ok; exists (47 :: x); exact P).
  unfold decoded. apply contains_percent in NP. rewrite NP.
  replace (strip_prefix (f_prefix c) (q_path q)) with (Some (47 :: x)) by (symmetry; apply strip_prefix_some; exact P).
  replace (starts_with (txt "/") (47 :: x)) with true by (symmetry; apply starts_ok; exists x; reflexivity).
  rewrite prefix_always, H1. cbn [negb orb].
  assert (DD : is_dir fs cwd (root_of cwdt c ++ 47 :: x) = true) by (unfold is_dir; rewrite R; exact D). rewrite DD, IX. cbn [find_index]. rewrite RI.
  assert (ND : is_dir fs cwd (join (root_of cwdt c ++ 47 :: x) i) = false). { unfold is_dir. rewrite RI. unfold is_dir_at. now rewrite A. }
  rewrite ND, H2. unfold by_file. rewrite PN. replace (match q_accept q with Some a => find_pre fs cwd [] a (join (root_of cwdt c ++ 47 :: x) i) | None => None end) with (@None (text * list text)) by (destruct (q_accept q); reflexivity).
  rewrite RI. destruct (send_plain date fmt seek fs c q (get_mimetype c (extension (join (root_of cwdt c ++ 47 :: x) i))) ns None content mt U HD A) as (r & E & S1 & S2). rewrite E. exists r. cbn [rbind]. auto.
Qed.
Example C38_index_example : let c := FCfg (Some (txt "/srv/www")) (txt "/static") [] [] None None None [txt "index.html"] [txt "index.html"] 404 [] false true false in
  (exists r, ex_deal c (get (txt "/static/index.html")) = Ok r /\ s_status r = 404) /\
  (exists r, ex_deal c (get (txt "/static/")) = Ok r /\ s_body r = BFile [txt "srv"; txt "www"; txt "index.html"] [7; 7] None).
Proof. vm_compute. repeat split; eexists; (split; [reflexivity|]); reflexivity. Qed.
(* false of the code: a hidden precompressed file is served in place of its original,
   which need not even be there *)
Theorem C38_compressed_refuted : forall decode date fmt seek fs cwd cwdt c q x e sfx a pre ns content mt,
  q_path q = f_prefix c ++ 47 :: x -> f_robots c = None -> ~ In 37 (q_path q) -> unconditional q -> q_head q = false ->
  unhidden c (root_of cwdt c) -> unhidden c (q_path q) -> is_dir fs cwd (root_of cwdt c ++ 47 :: x) = false ->
  In (e, sfx) [(txt "gzip", txt ".gz"); (txt "br", txt ".br")] -> f_pre c = e :: pre -> q_accept q = Some a -> occurs e a ->
  resolve fs cwd (root_of cwdt c ++ 47 :: x ++ sfx) = Some ns -> at_names fs ns = Some (File content mt) ->
  In sfx (f_hide c) ->
  exists r, deal decode date fmt seek fs cwd cwdt c q = Ok r /\ s_status r = 200 /\ s_body r = BFile ns content None.
Proof.
  intros decode date fmt seek fs cwd cwdt c q x e sfx a pre ns content mt P RB NP U HD H1 H2 ND ES PE AC OC R A _. apply hide_none in H1, H2.
  unfold deal. rewrite RB. replace (if leqb (q_path q) (txt "/robots.txt") then @None text else None) with (@None text) by (destruct (leqb _ _); reflexivity).
  replace (starts_with (f_prefix c) (q_path q)) with true by (symmetry; apply starts_ok; exists (47 :: x); exact P).
  unfold decoded. apply contains_percent in NP. rewrite NP.
  replace (strip_prefix (f_prefix c) (q_path q)) with (Some (47 :: x)) by (symmetry; apply strip_prefix_some; exact P).
  replace (starts_with (txt "/") (47 :: x)) with true by (symmetry; apply starts_ok; exists x; reflexivity).
  rewrite prefix_always, H1. cbn [negb orb]. rewrite !ND, H2. unfold by_file. rewrite AC, PE. cbn [find_pre].
  replace (contains e a) with true by (symmetry; apply contains_ok; exact OC).
  replace (if leqb e (txt "gzip") then Some (txt ".gz") else if leqb e (txt "br") then Some (txt ".br") else None) with (Some sfx) by (destruct ES as [ES|[ES|[]]]; injection ES as <- <-; reflexivity).
  rewrite <- app_assoc. cbn [app]. rewrite R.
  match goal with |- context [send_file date fmt seek fs c q ?m ?n ?o] => change (send_file date fmt seek fs c q m n o) with (send_file date fmt seek fs c q m ns (Some e)); destruct (send_plain date fmt seek fs c q m ns (Some e) content mt U HD A) as (r & E & S1 & S2) end. rewrite E. exists r. cbn [rbind]. auto.
Qed.
Example C38_compressed_example :
  let c := FCfg (Some (txt "/srv/www")) (txt "/static") [] [] None None None [txt ".gz"] [] 404 [txt "gzip"] false true false in
  let q p := FReq p false (Some (txt "gzip, br")) None None None None None in
  (exists r, ex_deal c (q (txt "/static/sub/a.txt.gz")) = Ok r /\ s_status r = 404) /\
  (exists r, ex_deal c (q (txt "/static/sub/a.txt")) = Ok r /\ s_body r = BFile [txt "srv"; txt "www"; txt "sub"; txt "a.txt.gz"] [5] None) /\
  resolve ex_fs [] (root_of (txt "/") c ++ 47 :: txt "sub/a.txt" ++ txt ".gz") = Some [txt "srv"; txt "www"; txt "sub"; txt "a.txt.gz"].
Proof. vm_compute. split; [eexists; split; reflexivity|]. split; [eexists; split; reflexivity|reflexivity]. Qed.
(* false of the code: patterns with a slash are evaded by doubling it *)
Lemma resolve_double t cwd p x : p <> [] -> resolve t cwd (p ++ 47 :: 47 :: x) = resolve t cwd (p ++ 47 :: x).
Proof.
  intro NE. unfold resolve. destruct p as [|y p]; [congruence|]. change ((y :: p) ++ 47 :: 47 :: x) with (y :: (p ++ 47 :: 47 :: x)) at 1. change ((y :: p) ++ 47 :: x) with (y :: (p ++ 47 :: x)) at 1. cbv iota.
  rewrite !absolute_app by exact NE. rewrite !split_on_gen, split_on_cons, !walk_app. destruct (path_walk t _ (split_on 47 (y :: p))) as [cur|]; [|reflexivity].
  destruct (split_on 47 x) as [|z l] eqn:E; [destruct (split_nonempty _ _ E)|].
  assert (Q : path_walk t cur ([] :: z :: l) = if is_dir_at t cur then path_walk t cur (z :: l) else None) by (cbn [path_walk]; unfold path_step at 1; destruct (is_dir_at t cur); reflexivity).
  rewrite Q. destruct (is_dir_at t cur) eqn:D; [reflexivity|]. cbn [path_walk]. unfold path_step. rewrite D. reflexivity.
Qed.
Theorem C38_slash_refuted : forall decode date fmt seek fs cwd cwdt c q q' x y ns content mt,
  q_path q = f_prefix c ++ 47 :: x ++ 47 :: y -> q_path q' = f_prefix c ++ 47 :: x ++ 47 :: 47 :: y ->
  f_robots c = None -> f_path404 c = None -> f_status c = 404 -> ~ In 37 (q_path q) -> unconditional q' -> q_head q' = false -> q_accept q' = None ->
  unhidden c (root_of cwdt c) -> ~ unhidden c (q_path q) -> unhidden c (q_path q') ->
  resolve fs cwd (root_of cwdt c ++ 47 :: x ++ 47 :: y) = Some ns -> at_names fs ns = Some (File content mt) ->
  (exists r t, deal decode date fmt seek fs cwd cwdt c q = Ok r /\ s_status r = 404 /\ s_body r = BText t) /\
  (exists r, deal decode date fmt seek fs cwd cwdt c q' = Ok r /\ s_status r = 200 /\ s_body r = BFile ns content None).
Proof.
  intros decode date fmt seek fs cwd cwdt c q q' x y ns content mt P P' RB P4 S4 NP U HD AC H1 H2 H3 R A. split.
  - apply hide_none in H1. assert (HH : is_hide c (q_path q) = true) by (destruct (is_hide c (q_path q)) eqn:E; [reflexivity|exfalso; apply H2; apply hide_none; exact E]).
    unfold deal. rewrite RB. replace (if leqb (q_path q) (txt "/robots.txt") then @None text else None) with (@None text) by (destruct (leqb _ _); reflexivity).
    replace (starts_with (f_prefix c) (q_path q)) with true by (symmetry; apply starts_ok; exists (47 :: x ++ 47 :: y); exact P).
    unfold decoded. apply contains_percent in NP. rewrite NP.
    replace (strip_prefix (f_prefix c) (q_path q)) with (Some (47 :: x ++ 47 :: y)) by (symmetry; apply strip_prefix_some; exact P).
    replace (starts_with (txt "/") (47 :: x ++ 47 :: y)) with true by (symmetry; apply starts_ok; exists (x ++ 47 :: y); reflexivity).
    rewrite prefix_always, H1. cbn [negb orb].
    assert (ND : is_dir fs cwd (root_of cwdt c ++ 47 :: x ++ 47 :: y) = false) by (unfold is_dir; rewrite R; unfold is_dir_at; now rewrite A).
    rewrite !ND, HH. unfold ret_error, plain_error. rewrite S4, P4. eexists _, _. split; [reflexivity|]. split; [reflexivity|reflexivity].
  - assert (NP' : ~ In 37 (q_path q')).
    { rewrite P'. rewrite P in NP. intro J. apply NP. rewrite in_app_iff in *. cbn [In] in *. rewrite in_app_iff in *. cbn [In] in *. destruct J as [J|[J|[J|[J|[J|J]]]]]; try discriminate J; auto. }
    apply hide_none in H1, H3.
    assert (R' : resolve fs cwd (root_of cwdt c ++ 47 :: x ++ 47 :: 47 :: y) = Some ns).
    { rewrite <- R. replace (root_of cwdt c ++ 47 :: x ++ 47 :: 47 :: y) with ((root_of cwdt c ++ 47 :: x) ++ 47 :: 47 :: y) by (rewrite <- app_assoc; reflexivity).
      rewrite resolve_double by (destruct (root_of cwdt c); discriminate). rewrite <- app_assoc. reflexivity. }
    rewrite (deal_plain date fmt seek fs cwd decode cwdt c q' (x ++ 47 :: 47 :: y) ns content mt P' RB NP' H1 H3 R' A). unfold by_file. rewrite AC, R'.
    destruct (send_plain date fmt seek fs c q' (get_mimetype c (extension (root_of cwdt c ++ 47 :: x ++ 47 :: 47 :: y))) ns None content mt U HD A) as (r & E & S1 & S2). rewrite E. exists r. cbn [rbind]. auto.
Qed.
Example C38_slash_example : let c := FCfg (Some (txt "/srv/www")) (txt "/static") [] [] None None None [txt "sub/a.txt"] [] 404 [] false true false in
  ~ unhidden c (txt "/static/sub/a.txt") /\ unhidden c (txt "/static/sub//a.txt") /\ unhidden c (root_of (txt "/") c) /\
  resolve ex_fs [] (root_of (txt "/") c ++ 47 :: txt "sub" ++ 47 :: txt "a.txt") = Some [txt "srv"; txt "www"; txt "sub"; txt "a.txt"] /\
  (exists r, ex_deal c (get (txt "/static/sub//a.txt")) = Ok r /\ s_body r = BFile [txt "srv"; txt "www"; txt "sub"; txt "a.txt"] [9; 9; 9; 9] None).
Proof.
  cbv zeta. split; [intro H; apply hide_none in H; vm_compute in H; discriminate H|]. split; [apply hide_none; reflexivity|]. split; [apply hide_none; reflexivity|].
  split; [vm_compute; reflexivity|]. vm_compute. eexists. split; reflexivity.
Qed.

(* ---- C39 ------------------------------------------------------------------------- *)
(* what the client gets for an interval inside the file *)
Theorem C39_answer_partial : forall decode date fmt seek fs cwd cwdt c q ns content mt a b,
  asks_for fs cwd cwdt c q ns content mt -> (forall s e, seek (Some (nlen content)) s e = true) ->
  q_head q = false -> q_inm q = None -> q_ims q = None -> q_if_range q = None -> q_accept_ranges q = None ->
  a <= b -> b < nlen content -> b <= u64_max -> q_range q = Some (txt "bytes=" ++ show a ++ txt "-" ++ show b) ->
  exists r, deal decode date fmt seek fs cwd cwdt c q = Ok r /\ s_status r = 206 /\ s_body r = BFile ns content (Some (a, b)) /\
    hget (txt "Content-Range") r = Some (txt "bytes " ++ show a ++ txt "-" ++ show b ++ txt "/" ++ show (nlen content)).
Proof.
  intros decode date fmt seek fs cwd cwdt c q ns content mt a b AF SK HD I1 I2 I3 I4 L1 L2 L3 RG.
  destruct (deal_asks decode date fmt seek _ _ _ _ _ _ _ _ AF) as (m & E & A). rewrite E. unfold send_file. rewrite A. unfold try_cache. rewrite I1, I2.
  unfold after_file, if_range_ok, range_wanted. rewrite I3, I4, RG. assert (CR := calc_range_all (FirstLast a b) (nlen content)). cbn [range_valid] in CR. unfold range_text in CR. rewrite CR by lia.
  unfold head_body. rewrite HD. rewrite meta_body, plain_body, !hset_body. cbn [s_body body_len]. rewrite SK. eexists. split; [reflexivity|]. cbn [set_status s_status s_body hset set_body with_part].
  split; [reflexivity|]. split; [reflexivity|]. apply lookup_insert.
Qed.
Example C39_cases :
  let q r := FReq (txt "/static/sub/a.txt") false None None None None None (Some r) in
  asks_for ex_fs [] (txt "/") ex_cfg (q (txt "bytes=1-2")) [txt "srv"; txt "www"; txt "sub"; txt "a.txt"] [9; 9; 9; 9] (Some 60) /\
  (exists r, ex_deal ex_cfg (q (txt "bytes=1-2")) = Ok r /\ s_status r = 206 /\ hget (txt "Content-Range") r = Some (txt "bytes 1-2/4")) /\
  (exists r, ex_deal ex_cfg (q (txt "bytes=3-1")) = Ok r /\ s_status r = 416) /\
  (exists r, ex_deal ex_cfg (q (txt "bytes=7-9")) = Ok r /\ s_status r = 206).
Proof.
  split.
  - exists (txt "sub/a.txt"). split; [reflexivity|]. split; [reflexivity|]. split; [apply contains_percent; reflexivity|]. do 2 (split; [apply hide_none; reflexivity|]). repeat (split; [reflexivity|]). left. reflexivity.
  - vm_compute. repeat split; eexists; (split; [reflexivity|]); try reflexivity. split; reflexivity.
Qed.

(* ---- C40, C67 -------------------------------------------------------------------- *)
(* the tag tells versions apart by modification second and length *)
Theorem C40_tag : forall mt len mt' len', calc_etag mt len = calc_etag mt' len' -> secs mt = secs mt' /\ len = len'.
Proof. apply etag_inj. Qed.
(* without a Range header: 304 without content exactly when a validator matches,
   the whole current content otherwise, and the tag is sent either way *)
Definition validated (date : text -> option N) (q : freq) (mt : option N) (len : N) : Prop :=
  q_inm q = Some (calc_etag mt len) \/ exists v s, q_ims q = Some v /\ mt = Some s /\ (date v = Some s \/ date v = None /\ s = 0).
Theorem C40_conditional_partial : forall decode date fmt seek fs cwd cwdt c q ns content mt,
  asks_for fs cwd cwdt c q ns content mt -> q_range q = None -> q_head q = false ->
  exists r, deal decode date fmt seek fs cwd cwdt c q = Ok r /\ hget (txt "ETag") r = Some (calc_etag mt (nlen content)) /\
    ((validated date q mt (nlen content) /\ s_status r = 304 /\ s_body r = BNone) \/
     (~ validated date q mt (nlen content) /\ s_status r = 200 /\ s_body r = BFile ns content None)).
Proof.
  intros decode date fmt seek fs cwd cwdt c q ns content mt AF RG HD.
  destruct (deal_asks decode date fmt seek _ _ _ _ _ _ _ _ AF) as (m & E & A). rewrite E. unfold send_file. rewrite A.
  assert (AFT : forall r0, exists r, after_file date fmt seek c q mt (nlen content) r0 = (r, true) /\ s_status r = s_status r0 /\ s_body r = s_body r0 /\ hget (txt "ETag") r = Some (calc_etag mt (nlen content))).
  { intros r0. exists (meta_headers fmt mt (nlen content) (plain_headers c r0)). unfold after_file, head_body. rewrite RG, HD. split.
    - destruct (range_wanted q), (if_range_ok date q mt (nlen content)); reflexivity.
    - rewrite meta_status, meta_body, plain_status, plain_body. split; [reflexivity|]. split; [reflexivity|]. unfold meta_headers. apply hget_hset. }
  destruct (AFT (FResp 304 [] BNone)) as (r1 & A1 & A2 & A3 & A4).
  unfold try_cache. rewrite A1. cbn [fst].
  destruct (match q_inm q with Some v => leqb v (calc_etag mt (nlen content)) | None => false end) eqn:IN.
  { exists r1. split; [reflexivity|]. split; [exact A4|]. left. split; [|auto]. left. destruct (q_inm q); [|discriminate]. apply leqb_ok in IN. now rewrite IN. }
  assert (NI : q_inm q <> Some (calc_etag mt (nlen content))). { intros X. rewrite X, leqb_refl in IN. discriminate. }
  set (miss := match q_ims q, mt with Some v, Some s => if calc_lastmodified date v =? s then Some r1 else None | _, _ => None end).
  assert (M : (miss = Some r1 /\ exists v s, q_ims q = Some v /\ mt = Some s /\ (date v = Some s \/ date v = None /\ s = 0)) \/
              (miss = None /\ ~ exists v s, q_ims q = Some v /\ mt = Some s /\ (date v = Some s \/ date v = None /\ s = 0))).
  { unfold miss. destruct (q_ims q) as [v|]; [|right; split; [reflexivity|]; intros (v & s & X & _); discriminate].
    destruct mt as [s|]; [|right; split; [reflexivity|]; intros (v' & s & _ & X & _); discriminate].
    unfold calc_lastmodified. destruct (date v) as [d|] eqn:DV.
    - destruct (N.eqb_spec d s) as [->|NE]; [left; split; [reflexivity|]; exists v, s; auto|]. right. split; [reflexivity|]. intros (v' & s' & [= <-] & [= <-] & [X|(X & _)]); congruence.
    - destruct (N.eqb_spec 0 s) as [<-|NE]; [left; split; [reflexivity|]; exists v, 0; auto|]. right. split; [reflexivity|]. intros (v' & s' & [= <-] & [= <-] & [X|(_ & X)]); congruence. }
  destruct M as [(-> & V)|(-> & V)].
  - exists r1. split; [reflexivity|]. split; [exact A4|]. left. split; [right; exact V|auto].
  - match goal with |- context [after_file date fmt seek c q mt (nlen content) ?x] => destruct (AFT x) as (r2 & B1 & B2 & B3 & B4); rewrite B1 end.
    exists r2. split; [reflexivity|]. split; [exact B4|]. right. split; [intros [X|X]; contradiction|]. rewrite B2, B3. rewrite !hset_status, !hset_body. auto.
Qed.
(* false of the code: a date that cannot be read validates a file of 1970-01-01 00:00:00 *)
Theorem C40_epoch_refuted : forall decode date fmt seek fs cwd cwdt c q ns content v,
  asks_for fs cwd cwdt c q ns content (Some 0) -> q_range q = None -> q_head q = false -> q_ims q = Some v -> date v = None ->
  exists r, deal decode date fmt seek fs cwd cwdt c q = Ok r /\ s_status r = 304.
Proof.
  intros decode date fmt seek fs cwd cwdt c q ns content v AF RG HD IM DV. destruct (C40_conditional_partial decode date fmt seek _ _ _ _ _ _ _ _ AF RG HD) as (r & E & _ & [(_ & S & _)|(NV & _)]); [eauto|].
  destruct NV. right. exists v, 0. auto.
Qed.
(* C67: a client with the tag of a version that differs in length or second gets the
   new content, if it sends the tag alone *)
Theorem C67_changed_partial : forall decode date fmt seek fs cwd cwdt c q ns content mt mt' len',
  asks_for fs cwd cwdt c q ns content mt -> q_range q = None -> q_head q = false ->
  q_inm q = Some (calc_etag mt' len') -> q_ims q = None -> secs mt' <> secs mt \/ len' <> nlen content ->
  exists r, deal decode date fmt seek fs cwd cwdt c q = Ok r /\ s_status r = 200 /\ s_body r = BFile ns content None.
Proof.
  intros decode date fmt seek fs cwd cwdt c q ns content mt mt' len' AF RG HD IN IM DF.
  destruct (C40_conditional_partial decode date fmt seek _ _ _ _ _ _ _ _ AF RG HD) as (r & E & _ & [(V & _)|(_ & S1 & S2)]); [|eauto].
  exfalso. destruct V as [V|(v & s & V & _)]; [|congruence]. rewrite IN in V. injection V as V. apply etag_inj in V. destruct V; destruct DF; contradiction.
Qed.
(* false of the code when it also sends the date, as clients do: a change within the
   second is answered 304 although the tags differ *)
Theorem C67_stale_refuted : forall decode date fmt seek fs cwd cwdt c q ns content s v old,
  asks_for fs cwd cwdt c q ns content (Some s) -> q_range q = None -> q_head q = false ->
  q_inm q = Some (calc_etag (Some s) old) -> old <> nlen content -> q_ims q = Some v -> date v = Some s ->
  exists r, deal decode date fmt seek fs cwd cwdt c q = Ok r /\ s_status r = 304 /\ s_body r = BNone.
Proof.
  intros decode date fmt seek fs cwd cwdt c q ns content s v old AF RG HD IN _ IM DV.
  destruct (C40_conditional_partial decode date fmt seek _ _ _ _ _ _ _ _ AF RG HD) as (r & E & _ & [(V & S1 & S2)|(NV & _)]); [eauto|]. destruct NV. right. exists v, s. auto.
Qed.
Example C40_example :
  let q t d := FReq (txt "/static/sub/a.txt") false None t d None None None in
  calc_etag (Some 60) 4 = txt "3c-4" /\
  (exists r, ex_deal ex_cfg (q (Some (txt "3c-4")) None) = Ok r /\ s_status r = 304) /\
  (exists r, ex_deal ex_cfg (q (Some (txt "3c-5")) None) = Ok r /\ s_status r = 200) /\
  (exists r, deal no_decode (fun _ => Some 60) (fun _ => []) (fun _ _ _ => true) ex_fs [] (txt "/") ex_cfg (q (Some (txt "3c-5")) (Some (txt "..."))) = Ok r /\ s_status r = 304).
Proof. vm_compute. repeat split; eexists; (split; [reflexivity|]); reflexivity. Qed.

(* ---- C68: no crash ----------------------------------------------------------------- *)
(* exactly when a request crashes its handler *)
Lemma find_first fs cwd ixs : forall real,
  (find_index fs cwd ixs real = real /\ forall j, In j ixs -> resolve fs cwd (join real j) = None) \/
  exists before i after, ixs = before ++ i :: after /\ find_index fs cwd ixs real = join real i /\ resolve fs cwd (join real i) <> None /\ forall j, In j before -> resolve fs cwd (join real j) = None.
Proof.
  induction ixs as [|i ixs IH]; intros real; cbn [find_index]; [left; split; [reflexivity|intros j []]|].
  destruct (resolve fs cwd (join real i)) eqn:R; [right; exists [], i, ixs; repeat split; [congruence|intros j []]|].
  destruct (IH real) as [(E & N)|(b & i' & a & E & F & R' & N)]; [left; split; [exact E|]|right; exists (i :: b), i', a; subst ixs; repeat split; [exact F|exact R'|]];
    (intros j [<-|I]; [exact R|apply N; exact I]).
Qed.
Lemma first_found fs cwd before i after real : (forall j, In j before -> resolve fs cwd (join real j) = None) -> resolve fs cwd (join real i) <> None ->
  find_index fs cwd (before ++ i :: after) real = join real i.
Proof.
  intros N R. induction before as [|b before IH]; cbn [app find_index]; [destruct (resolve fs cwd (join real i)); [reflexivity|congruence]|].
  rewrite (N b (or_introl eq_refl)). apply IH. intros j I. apply N. right. exact I.
Qed.
Lemma is_prefix_ok a : forall b, is_prefix a b = true <-> exists m, b = a ++ m.
Proof.
  induction a as [|x a IH]; intros b; cbn [is_prefix]; [split; [intros _; exists b; reflexivity|reflexivity]|].
  destruct b as [|y b]; [split; [discriminate|intros (m & E); discriminate]|]. rewrite andb_true_iff, leqb_ok, IH. split.
  - intros (-> & m & ->). exists m. reflexivity.
  - intros (m & E). injection E as -> ->. split; [reflexivity|exists m; reflexivity].
Qed.
Lemma under_ok root p : path_starts_with p root = true <-> under root p.
Proof. apply is_prefix_ok. Qed.
Lemma join_under root x i : absolute i = false -> exists y, join (root ++ 47 :: x) i = root ++ 47 :: y.
Proof.
  intros A. unfold join. rewrite A. destruct (root ++ 47 :: x) as [|c0 s0] eqn:E0; [destruct (app_cons_not_nil _ _ _ (eq_sym E0))|]. rewrite <- E0.
  destruct (ends_with (txt "/") (root ++ 47 :: x)); rewrite <- app_assoc; cbn [app]; eauto.
Qed.
Lemma absolute_ok i : absolute i = true <-> exists y, i = 47 :: y.
Proof. unfold absolute. split; [intros H; apply starts_ok in H; destruct H as (y & ->); exists y; reflexivity|intros (y & ->); apply starts_ok; exists y; reflexivity]. Qed.
Lemma by_file_no_panic date fmt seek fs cwd c q real : by_file date fmt seek fs cwd c q real <> Panic.
Proof.
  assert (NS : forall m n e, send_file date fmt seek fs c q m n e <> Panic).
  { intros m n e. unfold send_file. destruct (at_names fs n) as [[content mt|]|]; try discriminate. destruct (try_cache date fmt seek c q mt (nlen content)); [discriminate|].
    match goal with |- context [after_file date fmt seek c q mt (nlen content) ?x] => destruct (after_file date fmt seek c q mt (nlen content) x) as (r, ok) end. destruct ok; discriminate. }
  unfold by_file. destruct (match q_accept q with Some a => find_pre fs cwd (f_pre c) a real | None => None end) as [(e, n)|].
  - specialize (NS (get_mimetype c (extension real)) n (Some e)). destruct (send_file _ _ _ _ _ _ _ n (Some e)); [discriminate|discriminate|congruence].
  - destruct (resolve fs cwd real) as [n|]; [|discriminate]. specialize (NS (get_mimetype c (extension real)) n None). destruct (send_file _ _ _ _ _ _ _ n None); [discriminate|discriminate|congruence].
Qed.
Lemma plain_ok c msg : 100 <= f_status c < 1000 -> plain_error c msg = Ok (FResp (f_status c) [] (BText msg)).
Proof. intros (A & B). unfold plain_error. apply N.leb_le in A. apply N.ltb_lt in B. now rewrite A, B. Qed.
Lemma error_ok date fmt seek fs cwd c q msg : 100 <= f_status c < 1000 -> ret_error date fmt seek fs cwd c q msg <> Panic.
Proof.
  intros V. unfold ret_error. rewrite (plain_ok _ _ V). destruct (f_status c =? 404); [|discriminate]. destruct (f_path404 c) as [p|]; [|discriminate].
  assert (N := by_file_no_panic date fmt seek fs cwd c q p). destruct (by_file _ _ _ _ _ _ _ p) as [[r|]| |]; congruence.
Qed.
Theorem C68_crash : forall decode date fmt seek fs cwd cwdt c q, names_wf fs -> 100 <= f_status c < 1000 ->
  deal decode date fmt seek fs cwd cwdt c q = Panic <->
  (q_path q = txt "/robots.txt" -> f_robots c = None) /\ (exists h, q_path q = f_prefix c ++ h) /\
  (~ (exists h, decoded decode (q_path q) = f_prefix c ++ h) \/
   exists x, (decoded decode (q_path q) = f_prefix c ++ 47 :: x \/ (decoded decode (q_path q) = f_prefix c ++ x /\ forall y, x <> 47 :: y)) /\ foreign_index fs cwd cwdt c x).
Proof.
  intros decode date fmt seek fs cwd cwdt c q WF V. assert (RE := fun msg => error_ok date fmt seek fs cwd c q msg V). unfold deal.
  assert (RB : (if leqb (q_path q) (txt "/robots.txt") then f_robots c else None) = None <-> (q_path q = txt "/robots.txt" -> f_robots c = None)).
  { destruct (leqb (q_path q) (txt "/robots.txt")) eqn:E; [apply leqb_ok in E; tauto|]. split; [|reflexivity]. intros _ X. rewrite X, leqb_refl in E. discriminate. }
  destruct (if leqb (q_path q) (txt "/robots.txt") then f_robots c else None) as [t|].
  { split; [discriminate|]. intros (X & _). apply RB in X. discriminate. }
  destruct (starts_with (f_prefix c) (q_path q)) eqn:SW.
  2:{ split; [intros XX; destruct (RE _ XX)|]. intros (_ & X & _). apply starts_ok in X. congruence. }
  apply starts_ok in SW. destruct (strip_prefix (f_prefix c) (decoded decode (q_path q))) as [h|] eqn:SP.
  2:{ split; [|reflexivity]. intros _. apply strip_prefix_none in SP. split; [apply RB; reflexivity|auto]. }
  apply strip_prefix_some in SP.
  assert (X : exists x, (if starts_with (txt "/") h then h else txt "/" ++ h) = 47 :: x /\ (h = 47 :: x \/ (h = x /\ forall y, x <> 47 :: y))).
  { destruct (starts_with (txt "/") h) eqn:E; [apply starts_ok in E; destruct E as (x & E); exists x; auto|]. exists h. split; [reflexivity|]. right. split; [reflexivity|].
    intros y ->. vm_compute in E. discriminate. }
  destruct X as (x & X & HX). rewrite X. cbv zeta. rewrite prefix_always. cbn [negb orb].
  assert (XU : forall z, (decoded decode (q_path q) = f_prefix c ++ 47 :: z \/ (decoded decode (q_path q) = f_prefix c ++ z /\ forall y, z <> 47 :: y)) -> z = x).
  { intros z [E|(E & NE)]; rewrite SP in E; apply app_inv_head in E; subst h.
    - destruct HX as [HX|(HX & K)]; [congruence|]. destruct (K z). congruence.
    - destruct HX as [HX|(HX & _)]; [destruct (NE x HX)|exact HX]. }
  set (real0 := root_of cwdt c ++ 47 :: x) in *.
  set (real := if is_dir fs cwd real0 then find_index fs cwd (f_index c) real0 else real0).
  split.
  - destruct (is_hide c (root_of cwdt c)) eqn:HR; [intros XX; destruct (RE _ XX)|].
    destruct (if is_dir fs cwd real then resolve fs cwd real else None) as [ms|] eqn:D.
    2:{ destruct (is_hide c (decoded decode (q_path q))); [intros XX; destruct (RE _ XX)|].
      assert (NB := by_file_no_panic date fmt seek fs cwd c q real).
      destruct (by_file date fmt seek fs cwd c q real) as [[r|]| |]; cbn [rbind]; congruence. }
    destruct (is_dir fs cwd real) eqn:ID; [|discriminate]. destruct (f_browse c) eqn:BR; [|intros XX; destruct (RE _ XX)]. destruct (strip_fails fs c (root_of cwdt c) real ms) eqn:SF; [|discriminate]. intros _.
    split; [apply RB; reflexivity|]. split; [exact SW|]. right. exists x. split; [rewrite SP; destruct HX as [->|(-> & K)]; auto|].
    unfold strip_fails in SF. apply existsb_exists in SF. destruct SF as (n & IN & SF). apply andb_true_iff in SF. destruct SF as (NH & NU). apply negb_true_iff in NH, NU.
    unfold entries in IN. destruct (at_names fs ms) as [[|es]|] eqn:AN; try destruct IN.
    assert (NW : absolute n = false). { assert (W : name_ok n) by (apply (WF ms); rewrite AN; exact IN). destruct (absolute n) eqn:Q; [|reflexivity]. apply absolute_ok in Q. destruct Q as (y & ->). destruct W as (_ & _ & _ & W). destruct W. left. reflexivity. }
    assert (NR : forall y, real <> root_of cwdt c ++ 47 :: y).
    { intros y E. destruct (join_under (root_of cwdt c) y n NW) as (z & Z). rewrite E, Z, prefix_always in NU. discriminate. }
    destruct (is_dir fs cwd real0) eqn:ID0; [|destruct (NR x); reflexivity].
    destruct (find_first fs cwd (f_index c) real0) as [(E & _)|(before & i & after & E & F & R & N)]; [destruct (NR x); exact E|].
    destruct (absolute i) eqn:AI. 2:{ destruct (join_under (root_of cwdt c) x i AI) as (z & Z). destruct (NR z). unfold real. rewrite F. exact Z. }
    assert (RI : real = i) by (unfold real; rewrite F; unfold join; now rewrite AI). assert (AI2 := AI). apply absolute_ok in AI2. destruct AI2 as (y & ->).
    exists before, y, after, ms, es, n. rewrite RI in D, NH, NU. repeat (split; [assumption|]). split; [apply hide_none; exact NH|]. split; [intros U; apply under_ok in U; congruence|]. split; [apply hide_none; exact HR|exact BR].
  - intros (_ & _ & [NX|(x' & PX & before & i & after & ms & es & n & IX & ID & N & R & AN & IN & UH & NU & UR & BR)]); [destruct NX; eauto|]. apply XU in PX. subst x'.
    apply hide_none in UH, UR. rewrite UR. fold real0 in ID, N.
    assert (AI : absolute (47 :: i) = true) by (apply absolute_ok; eauto). assert (JI : join real0 (47 :: i) = 47 :: i) by (unfold join; now rewrite AI).
    assert (RX : real = 47 :: i). { unfold real. rewrite ID, IX, first_found; [exact JI|exact N|]. rewrite JI, R. discriminate. }
    rewrite RX. assert (DI : is_dir fs cwd (47 :: i) = true) by (unfold is_dir, is_dir_at; now rewrite R, AN). rewrite DI, R, BR.
    replace (strip_fails fs c (root_of cwdt c) (47 :: i) ms) with true; [reflexivity|]. symmetry. unfold strip_fails, entries. rewrite AN. apply existsb_exists. exists n. split; [exact IN|].
    rewrite UH. cbn [negb andb]. apply negb_true_iff. destruct (path_starts_with (join (47 :: i) n) (root_of cwdt c)) eqn:Q; [|reflexivity]. destruct NU. apply under_ok. exact Q.
Qed.
(* so none does if decoding keeps the prefix, every index is a relative name and the
   configured status has three digits *)
Theorem C68_safe_partial : forall decode date fmt seek fs cwd cwdt c q, names_wf fs -> 100 <= f_status c < 1000 ->
  (forall h d, decode (f_prefix c ++ h) = Some d -> exists h', d = f_prefix c ++ h') -> (forall y, ~ In (47 :: y) (f_index c)) ->
  deal decode date fmt seek fs cwd cwdt c q <> Panic.
Proof.
  intros decode date fmt seek fs cwd cwdt c q WF V K NI H. apply C68_crash in H; [|exact WF|exact V]. destruct H as (_ & (h & P) & [N|(x & _ & before & i & after & ms & es & n & IX & _)]).
  - apply N. unfold decoded. rewrite P.
    destruct (contains (txt "%") (f_prefix c ++ h)); [|eauto]. destruct (decode (f_prefix c ++ h)) as [d|] eqn:D; [|eauto]. eapply K; exact D.
  - apply (NI i). rewrite IX. apply in_app_iff. right. left. reflexivity.
Qed.
Example C68_safe_case : (forall y, ~ In (47 :: y) [txt "index.html"; txt "index.htm"]) /\ names_wf ex_fs /\ 100 <= f_status ex_cfg < 1000.
Proof. split; [intros y [E|[E|[]]]; discriminate|]. split; [exact ex_names|split; [discriminate|reflexivity]]. Qed.
(* false of the code if an index is the absolute path of a directory elsewhere *)
Definition index_fs : node := Dir [(txt "srv", Dir []); (txt "other", Dir [(txt "a", File [1] None)])].
Theorem C68_index_refuted : forall decode date fmt seek,
  exists c, f_index c = [txt "/other"] /\ f_root c = Some (txt "/srv") /\ deal decode date fmt seek index_fs [] (txt "/") c (get (txt "/")) = Panic.
Proof.
  intros. exists (FCfg (Some (txt "/srv")) [] [] [] None None None [] [txt "/other"] 404 [] false true false). split; [reflexivity|]. split; [reflexivity|]. vm_compute. reflexivity.
Qed.
(* false of the code if the configured status has not three digits: every request
   refused under a proper status crashes the handler *)
Definition with_status (c : fcfg) (n : N) : fcfg :=
  FCfg (f_root c) (f_prefix c) (f_mime c) (f_ext_mime c) (f_cache c) (f_robots c) (f_path404 c) (f_hide c) (f_index c) n (f_pre c) (f_nocomp c) (f_browse c) (f_cors c).
Lemma after_status date fmt seek c q mt len r0 : let s := s_status (fst (after_file date fmt seek c q mt len r0)) in s = s_status r0 \/ s = 206 \/ s = 416.
Proof.
  assert (HB : forall len r, s_status (head_body q len r) = s_status r) by (intros; unfold head_body; destruct (q_head q); reflexivity).
  cbv zeta. unfold after_file. destruct (range_wanted q); [destruct (if_range_ok _ _ _ _)|]; [destruct (q_range q) as [v|]; [destruct (calc_bytes_range v len) as [(s, e)|]; [destruct (seek _ _ _)|]|]| |];
    cbn [fst]; rewrite ?HB; unfold set_status, set_body, hset; cbn [s_status]; rewrite ?meta_status, ?plain_status; auto.
Qed.
Lemma by_file_status date fmt seek fs cwd c q real r : by_file date fmt seek fs cwd c q real = Ok (Some r) -> s_status r <> 500.
Proof.
  assert (NS : forall m n e r, send_file date fmt seek fs c q m n e = Ok r -> s_status r <> 500).
  { intros m n e r0. unfold send_file. destruct (at_names fs n) as [[content mt|]|]; try discriminate. destruct (try_cache date fmt seek c q mt (nlen content)) as [r1|] eqn:T.
    - intros [= <-]. unfold try_cache in T. assert (A := after_status date fmt seek c q mt (nlen content) (FResp 304 [] BNone)). cbv zeta in A. cbn [s_status] in A.
      destruct (match q_inm q with Some v => leqb v (calc_etag mt (nlen content)) | None => false end); [injection T as <-|destruct (q_ims q), mt; try discriminate; destruct (_ =? _); [injection T as <-|discriminate]];
        destruct A as [-> |[-> | ->]]; discriminate.
    - match goal with |- context [after_file date fmt seek c q mt (nlen content) ?x] => assert (A := after_status date fmt seek c q mt (nlen content) x); destruct (after_file date fmt seek c q mt (nlen content) x) as (r1, ok) end.
      destruct ok; [|discriminate]. intros [= <-]. cbv zeta in A. cbn [fst] in A. rewrite !hset_status in A. replace (s_status match e with Some e0 => hset (txt "Content-Encoding") e0 (FResp 200 [] (BFile n content None)) | None => FResp 200 [] (BFile n content None) end) with 200 in A by (destruct e; reflexivity).
      destruct A as [-> |[-> | ->]]; discriminate. }
  unfold by_file. destruct (match q_accept q with Some a => find_pre fs cwd (f_pre c) a real | None => None end) as [(e, n)|].
  - destruct (send_file _ _ _ _ _ _ _ n (Some e)) eqn:E; try discriminate. intros [= <-]. eapply NS; exact E.
  - destruct (resolve fs cwd real) as [n|]; [|discriminate]. destruct (send_file _ _ _ _ _ _ _ n None) eqn:E; try discriminate. intros [= <-]. eapply NS; exact E.
Qed.
Theorem C68_status_refuted : forall decode date fmt seek fs cwd cwdt c q n r, n < 100 \/ 1000 <= n ->
  deal decode date fmt seek fs cwd cwdt (with_status c 500) q = Ok r -> s_status r = 500 ->
  deal decode date fmt seek fs cwd cwdt (with_status c n) q = Panic.
Proof.
  intros decode date fmt seek fs cwd cwdt c q n r BAD.
  assert (RE : forall msg, ret_error date fmt seek fs cwd (with_status c n) q msg = Panic).
  { intros msg. unfold ret_error, plain_error. cbn [with_status f_status]. destruct (N.eqb_spec n 404); [lia|]. destruct (N.leb_spec 100 n), (N.ltb_spec n 1000); cbn [andb]; (reflexivity || lia). }
  unfold deal. cbn [with_status f_robots f_prefix f_browse f_index f_nocomp f_hide f_root]. 
  destruct (if leqb (q_path q) (txt "/robots.txt") then f_robots c else None).
  { intros [= <-] ST. rewrite plain_status in ST. discriminate. }
  destruct (starts_with (f_prefix c) (q_path q)); [|intros; apply RE]. destruct (strip_prefix (f_prefix c) (decoded decode (q_path q))) as [h|]; [|reflexivity].
  cbv zeta. change (is_hide (with_status c 500)) with (is_hide c). change (is_hide (with_status c n)) with (is_hide c). change (root_of cwdt (with_status c 500)) with (root_of cwdt c). change (root_of cwdt (with_status c n)) with (root_of cwdt c).
  match goal with |- context [path_starts_with ?z _] => set (real0 := z) end.
  destruct (negb (path_starts_with real0 (root_of cwdt c)) || is_hide c (root_of cwdt c)); [intros; apply RE|].
  set (real := if is_dir fs cwd real0 then find_index fs cwd (f_index c) real0 else real0).
  destruct (if is_dir fs cwd real then resolve fs cwd real else None) as [ms|].
  - destruct (f_browse c); [|intros; apply RE]. destruct (strip_fails fs (with_status c 500) (root_of cwdt c) real ms); [discriminate|]. intros [= <-] ST. destruct (f_nocomp c); discriminate.
  - destruct (is_hide c (decoded decode (q_path q))); [intros; apply RE|].
    change (by_file date fmt seek fs cwd (with_status c n) q real) with (by_file date fmt seek fs cwd (with_status c 500) q real).
    destruct (by_file date fmt seek fs cwd (with_status c 500) q real) as [[r'|]| |] eqn:B; cbn [rbind]; try discriminate; [|intros; apply RE].
    intros [= ->] ST. destruct (by_file_status _ _ _ _ _ _ _ _ _ B ST).
Qed.
Example C68_status_case : exists r, deal no_decode no_date (fun _ => []) (fun _ _ _ => true) ex_fs [] (txt "/") (with_status ex_cfg 500) (get (txt "/static/nothing")) = Ok r /\ s_status r = 500 /\
  deal no_decode no_date (fun _ => []) (fun _ _ _ => true) ex_fs [] (txt "/") (with_status ex_cfg 40) (get (txt "/static/nothing")) = Panic.
Proof. eexists. split; [vm_compute; reflexivity|]. split; vm_compute; reflexivity. Qed.
(* false of the code for a prefix written in encoded form *)
Theorem C68_crash_refuted : forall decode date fmt seek fs cwd cwdt, decode (txt "/my%20files/x") = Some (txt "/my files/x") ->
  exists c, f_prefix c = txt "/my%20files" /\ deal decode date fmt seek fs cwd cwdt c (get (txt "/my%20files/x")) = Panic.
Proof.
  intros decode date fmt seek fs cwd cwdt D. exists (FCfg None (txt "/my%20files") [] [] None None None [] [] 404 [] false true false). split; [reflexivity|].
  unfold deal, decoded. cbn [get q_path f_prefix f_robots]. change (contains (txt "%") (txt "/my%20files/x")) with true. cbv iota. rewrite D. vm_compute. reflexivity.
Qed.

(* ---- C69: configured types ----------------------------------------------------------- *)
Example C69_example : lookup leqb (txt "md") default_mime = Some (txt "text/plain") /\ lookup leqb (txt "wasm") default_mime = None /\
  get_mimetype (FCfg None [] [] [(txt "wasm", txt "application/wasm"); (txt "md", txt "text/markdown")] None None None [] [] 404 [] false true false) (extension (txt "/a/b.wasm")) = txt "application/wasm" /\
  get_mimetype (FCfg None [] [] [(txt "wasm", txt "application/wasm"); (txt "md", txt "text/markdown")] None None None [] [] 404 [] false true false) (extension (txt "/a/b.md")) = txt "text/plain".
Proof. vm_compute. auto. Qed.

(* ---- C70: the status of a missing file ------------------------------------------------ *)
Definition missing (fs : node) (cwd : list text) (cwdt : text) (c : fcfg) (q : freq) : Prop :=
  exists x, q_path q = f_prefix c ++ 47 :: x /\ f_robots c = None /\ ~ In 37 (q_path q) /\ resolve fs cwd (root_of cwdt c ++ 47 :: x) = None /\ (f_pre c = [] \/ q_accept q = None).
Lemma deal_missing decode date fmt seek fs cwd cwdt c q : missing fs cwd cwdt c q -> exists msg, deal decode date fmt seek fs cwd cwdt c q = ret_error date fmt seek fs cwd c q msg.
Proof.
  intros (x & P & RB & NP & R & AC). unfold deal. rewrite RB. replace (if leqb (q_path q) (txt "/robots.txt") then @None text else None) with (@None text) by (destruct (leqb _ _); reflexivity).
  replace (starts_with (f_prefix c) (q_path q)) with true by (symmetry; apply starts_ok; exists (47 :: x); exact P).
  unfold decoded. apply contains_percent in NP. rewrite NP.
  replace (strip_prefix (f_prefix c) (q_path q)) with (Some (47 :: x)) by (symmetry; apply strip_prefix_some; exact P).
  replace (starts_with (txt "/") (47 :: x)) with true by (symmetry; apply starts_ok; exists x; reflexivity).
  destruct (negb (path_starts_with (root_of cwdt c ++ 47 :: x) (root_of cwdt c)) || is_hide c (root_of cwdt c)); [eauto|].
  assert (ND : is_dir fs cwd (root_of cwdt c ++ 47 :: x) = false) by (unfold is_dir; now rewrite R). rewrite ND, ND. destruct (is_hide c (q_path q)); [eauto|].
  unfold by_file. replace (match q_accept q with Some a => find_pre fs cwd (f_pre c) a (root_of cwdt c ++ 47 :: x) | None => None end) with (@None (text * list text)).
  2:{ destruct AC as [-> | ->]; [destruct (q_accept q)|]; reflexivity. }
  rewrite R. cbn [rbind]. eauto.
Qed.
Theorem C70_status_partial : forall decode date fmt seek fs cwd cwdt c q, missing fs cwd cwdt c q -> 100 <= f_status c < 1000 -> f_path404 c = None \/ f_status c <> 404 ->
  exists r, deal decode date fmt seek fs cwd cwdt c q = Ok r /\ s_status r = f_status c.
Proof.
  intros decode date fmt seek fs cwd cwdt c q M V H. destruct (deal_missing decode date fmt seek _ _ _ _ _ M) as (msg & E). rewrite E. exists (FResp (f_status c) [] (BText msg)). split; [|reflexivity].
  unfold ret_error. rewrite (plain_ok _ _ V). destruct (N.eqb_spec (f_status c) 404) as [F|F]; [|reflexivity]. destruct H as [-> |H]; [reflexivity|contradiction].
Qed.
(* false of the code with an error page: the answer for a missing file has status 200 *)
Theorem C70_status_refuted : forall decode date fmt seek fs cwd cwdt c q p ns content mt, missing fs cwd cwdt c q -> unconditional q -> q_head q = false -> f_pre c = [] ->
  f_status c = 404 -> f_path404 c = Some p -> resolve fs cwd p = Some ns -> at_names fs ns = Some (File content mt) ->
  exists r, deal decode date fmt seek fs cwd cwdt c q = Ok r /\ s_status r = 200 /\ s_body r = BFile ns content None.
Proof.
  intros decode date fmt seek fs cwd cwdt c q p ns content mt M U HD PN ST P4 R A. destruct (deal_missing decode date fmt seek _ _ _ _ _ M) as (msg & E). rewrite E.
  unfold ret_error. rewrite ST, P4, N.eqb_refl. unfold by_file. rewrite PN. replace (match q_accept q with Some a => find_pre fs cwd [] a p | None => None end) with (@None (text * list text)) by (destruct (q_accept q); reflexivity).
  rewrite R. destruct (send_plain date fmt seek fs c q (get_mimetype c (extension p)) ns None content mt U HD A) as (r & F & S1 & S2). rewrite F. cbn [rbind]. eauto.
Qed.
Example C70_example : missing ex_fs [] (txt "/") ex_cfg (get (txt "/static/nothing")).
Proof. exists (txt "nothing"). split; [reflexivity|]. split; [reflexivity|]. split; [apply contains_percent; reflexivity|]. split; [reflexivity|left; reflexivity]. Qed.

(* ---- C71: links of a listing ------------------------------------------------------------- *)
(* the link shown for an entry is the prefix and a path that leads to that entry *)
Lemma link_under : forall decode date fmt seek fs cwd cwdt c q x r ns links l n nd,
  deal decode date fmt seek fs cwd cwdt c q = Ok r -> s_body r = BList ns links -> In (l, n) links ->
  q_path q = f_prefix c ++ 47 :: x -> f_index c = [] -> f_path404 c = None -> ~ In 37 (q_path q) ->
  resolve fs cwd (root_of cwdt c ++ 47 :: x) = Some ns -> (exists rn, resolve fs cwd (root_of cwdt c) = Some rn /\ is_dir_at fs rn = true) ->
  names_wf fs -> at_names fs (ns ++ [n]) = Some nd -> ~ In 92 (x ++ n) ->
  exists z, l = f_prefix c ++ 47 :: z /\ resolve fs cwd (root_of cwdt c ++ 47 :: z) = Some (ns ++ [n]) /\ is_hide c (root_of cwdt c) = false.
Proof.
  intros decode date fmt seek fs cwd cwdt c q x r ns links l n nd D B IL P IX P4 NP R (rn & RR & RD) WF A NB.
  destruct (deal_shows _ _ _ _ _ _ _ _ _ _ ns D) as [(p & sfx & E & _)|(h & x' & real & P' & HX & HR & RC & X)]; [right; eauto|congruence|].
  assert (DP : decoded decode (q_path q) = q_path q). { unfold decoded. apply contains_percent in NP. now rewrite NP. }
  destruct RC as [->|(i & I & _)]; [|rewrite IX in I; destruct I]. destruct X as [(a & b & sfx & X & _)|(X & W)]; [congruence|]. rewrite B in X. injection X as ->.
  assert (NW : name_ok n).
  { unfold list_dir in IL. apply in_map_iff in IL. destruct IL as (n' & E & I). injection E as _ ->. apply filter_In in I. destruct I as (I & _). eapply WF. exact I. }
  assert (AN : absolute n = false). { destruct NW as (_ & _ & _ & N4). destruct (absolute n) eqn:Q; [|reflexivity]. apply starts_ok in Q. destruct Q as (y & ->). destruct N4. left. reflexivity. }
  (* the request's own spelling *)
  rewrite DP, P in P'. apply app_inv_head in P'. 
  assert (XX : exists y, join (root_of cwdt c ++ 47 :: x') n = root_of cwdt c ++ 47 :: y /\ resolve fs cwd (root_of cwdt c ++ 47 :: y) = Some (ns ++ [n]) /\ ~ In 92 y).
  { assert (BX : ~ In 92 x'). { destruct HX as [HX|HX]; rewrite HX in P'.
      - injection P' as <-. intros I. apply NB. apply in_app_iff. auto.
      - subst x'. intros [I|I]; [discriminate|]. apply NB. apply in_app_iff. auto. }
    assert (BN : ~ In 92 n) by (intros I; apply NB; apply in_app_iff; auto).
    assert (ST : path_walk fs ns [n] = Some (ns ++ [n])) by (apply (walk_names_down fs [n] ns _ ltac:(constructor; [exact NW|constructor]) A)).
    assert (SN : split_on 47 n = [n]) by (apply split_on_one, no_in; apply NW).
    unfold join. rewrite AN. destruct (root_of cwdt c ++ 47 :: x') as [|c0 s0] eqn:E0; [destruct (app_cons_not_nil _ _ _ (eq_sym E0))|]. rewrite <- E0. rewrite <- E0 in W.
    rewrite (resolve_under _ _ _ _ _ RR) in W.
    destruct (ends_with (txt "/") (root_of cwdt c ++ 47 :: x')) eqn:EW.
    - exists (x' ++ n). split; [now rewrite <- app_assoc|]. split; [|rewrite in_app_iff; tauto]. rewrite (resolve_under _ _ _ _ _ RR).
      apply ends_slash in EW. destruct EW as (y & EW). destruct x' as [|c1 x1] using rev_ind.
      + cbn [app]. rewrite SN. change (split_on 47 []) with [@nil N] in W. cbn [path_walk] in W. unfold path_step in W. rewrite RD in W. cbn in W. injection W as ->. exact ST.
      + clear IHx1. change (root_of cwdt c ++ 47 :: x1 ++ [c1]) with (root_of cwdt c ++ (47 :: x1) ++ [c1]) in EW. rewrite app_assoc in EW. apply app_inj_tail in EW. destruct EW as (_ & ->).
        change (x1 ++ [47]) with (x1 ++ 47 :: []) in W. rewrite split_on_gen, walk_app in W. rewrite <- app_assoc. change ([47] ++ n) with (47 :: n). rewrite split_on_gen, walk_app, SN.
        destruct (path_walk fs rn (split_on 47 x1)) as [cur|]; [|discriminate]. change (split_on 47 []) with [@nil N] in W. cbn [path_walk] in W. unfold path_step in W. destruct (is_dir_at fs cur); [|discriminate]. cbn in W. injection W as ->. exact ST.
    - exists (x' ++ 47 :: n). split; [change (txt "/" ++ n) with (47 :: n); now rewrite <- app_assoc|]. split.
      + rewrite (resolve_under _ _ _ _ _ RR), split_on_gen, walk_app, W, SN. exact ST.
      + rewrite in_app_iff. intros [I|[I|I]]; [tauto|discriminate|tauto]. }
  destruct XX as (y & JY & RY & BY).
  unfold list_dir in IL. apply in_map_iff in IL. destruct IL as (n' & E0 & I). assert (E := f_equal fst E0). assert (E2 := f_equal snd E0). cbn [fst snd] in E, E2. subst n'.
  set (z := strip_lead (47 :: y)).
  assert (LZ : l = f_prefix c ++ 47 :: z).
  { rewrite <- E. f_equal. rewrite JY. rewrite skipn_app, skipn_all, Nat.sub_diag. change (skipn 0 (47 :: y)) with (47 :: y). change ([] ++ 47 :: y) with (47 :: y).
    assert (SL : forall s, ~ In 92 s -> slashes s = s). { intros s Hs. unfold slashes. rewrite <- (map_id s) at 2. apply map_ext_in. intros a Ia. destruct (N.eqb_spec a 92) as [->|]; [contradiction|reflexivity]. }
    change (txt "/" ++ strip_lead (47 :: y)) with (47 :: z). apply SL. intros [J|J]; [discriminate|]. assert (SS : forall s, In 92 (strip_lead s) -> In 92 s).
    { clear. intros s. remember (length s) as k eqn:Hk. assert (L : (length s <= k)%nat) by lia. clear Hk. revert s L. induction k as [|k IH]; intros s L I; [destruct s; [exact I|cbn in L; lia]|].
      destruct s as [|a s]; [exact I|]. cbn [strip_lead] in I. cbn [length] in L. destruct (a =? 47); [right; apply IH; [lia|exact I]|]. destruct (a =? 46); [|exact I]. destruct s as [|d s]; [destruct I|]. destruct (d =? 47); [|exact I]. right. right. apply IH; [cbn [length] in L; lia|exact I]. }
    apply SS in J. destruct J as [J|J]; [discriminate|contradiction]. }
  assert (RZ : resolve fs cwd (root_of cwdt c ++ 47 :: z) = Some (ns ++ [n])).
  { rewrite (resolve_under _ _ _ _ _ RR). rewrite (resolve_under _ _ _ _ _ RR) in RY. unfold z. rewrite strip_lead_walk by exact RD. rewrite split_on_cons. cbn [path_walk]. unfold path_step at 1. rewrite RD. exact RY. }
  exists z. auto.
Qed.
(* following the link shown for a file yields that file, if the link needs no encoding *)
Theorem C71_link_partial : forall decode date fmt seek fs cwd cwdt c q x r ns links l n content mt,
  deal decode date fmt seek fs cwd cwdt c q = Ok r -> s_body r = BList ns links -> In (l, n) links ->
  q_path q = f_prefix c ++ 47 :: x -> f_index c = [] -> f_path404 c = None -> f_robots c = None -> f_pre c = [] -> ~ In 37 (q_path q) ->
  resolve fs cwd (root_of cwdt c ++ 47 :: x) = Some ns -> (exists rn, resolve fs cwd (root_of cwdt c) = Some rn /\ is_dir_at fs rn = true) ->
  names_wf fs -> at_names fs (ns ++ [n]) = Some (File content mt) -> ~ In 92 (x ++ n) -> ~ In 37 l -> unhidden c l ->
  exists r', deal decode date fmt seek fs cwd cwdt c (get l) = Ok r' /\ s_body r' = BFile (ns ++ [n]) content None.
Proof.
  intros decode date fmt seek fs cwd cwdt c q x r ns links l n content mt D B IL P IX P4 RB PN NP R HR WF A NB NL NHL. apply hide_none in NHL.
  destruct (link_under _ _ _ _ _ _ _ _ _ _ _ _ _ _ _ _ D B IL P IX P4 NP R HR WF A NB) as (z & LZ & RZ & HH).
  rewrite (deal_plain date fmt seek fs cwd decode cwdt c (get l) z (ns ++ [n]) content mt) by (cbn [get q_path]; assumption).
  unfold by_file. cbn [get q_accept]. rewrite RZ. destruct (send_plain date fmt seek fs c (get l) (get_mimetype c (extension (root_of cwdt c ++ 47 :: z))) (ns ++ [n]) None content mt) as (r' & F & S1 & S2); [repeat split|reflexivity|exact A|].
  exists r'. rewrite F. cbn [rbind]. auto.
Qed.
(* and the link shown for a directory yields the listing of that directory *)
Theorem C71_directory_partial : forall decode date fmt seek fs cwd cwdt c q x r ns links l n es,
  deal decode date fmt seek fs cwd cwdt c q = Ok r -> s_body r = BList ns links -> In (l, n) links ->
  q_path q = f_prefix c ++ 47 :: x -> f_index c = [] -> f_path404 c = None -> f_robots c = None -> f_browse c = true -> ~ In 37 (q_path q) ->
  resolve fs cwd (root_of cwdt c ++ 47 :: x) = Some ns -> (exists rn, resolve fs cwd (root_of cwdt c) = Some rn /\ is_dir_at fs rn = true) ->
  names_wf fs -> at_names fs (ns ++ [n]) = Some (Dir es) -> ~ In 92 (x ++ n) -> ~ In 37 l ->
  exists r' links', deal decode date fmt seek fs cwd cwdt c (get l) = Ok r' /\ s_body r' = BList (ns ++ [n]) links' /\ s_status r' = 200 /\
    forall m, In m (map snd links') -> In m (map fst es).
Proof.
  intros decode date fmt seek fs cwd cwdt c q x r ns links l n es D B IL P IX P4 RB BR NP R HR WF A NB NL.
  destruct (link_under _ _ _ _ _ _ _ _ _ _ _ _ _ _ _ _ D B IL P IX P4 NP R HR WF A NB) as (z & LZ & RZ & HH).
  unfold deal. cbn [get q_path]. rewrite RB. replace (if leqb l (txt "/robots.txt") then @None text else None) with (@None text) by (destruct (leqb _ _); reflexivity).
  replace (starts_with (f_prefix c) l) with true by (symmetry; apply starts_ok; exists (47 :: z); exact LZ).
  unfold decoded. apply contains_percent in NL. rewrite NL.
  replace (strip_prefix (f_prefix c) l) with (Some (47 :: z)) by (symmetry; apply strip_prefix_some; exact LZ).
  replace (starts_with (txt "/") (47 :: z)) with true by (symmetry; apply starts_ok; exists z; reflexivity).
  rewrite prefix_always, HH. cbn [negb orb]. rewrite IX. cbn [find_index].
  assert (ID : is_dir fs cwd (root_of cwdt c ++ 47 :: z) = true). { unfold is_dir. rewrite RZ. unfold is_dir_at. now rewrite A. }
  rewrite ID. rewrite ID. rewrite RZ, BR.
  assert (SF : strip_fails fs c (root_of cwdt c) (root_of cwdt c ++ 47 :: z) (ns ++ [n]) = false).
  { destruct (strip_fails _ _ _ _ _) eqn:Q; [|reflexivity]. unfold strip_fails in Q. apply existsb_exists in Q. destruct Q as (m & IM & Q). apply andb_true_iff in Q. destruct Q as (_ & Q). apply negb_true_iff in Q.
    assert (AM : absolute m = false). { assert (W : name_ok m) by (apply (WF (ns ++ [n])); exact IM). destruct (absolute m) eqn:Y; [|reflexivity]. apply absolute_ok in Y. destruct Y as (y & ->). destruct W as (_ & _ & _ & W). destruct W. left. reflexivity. }
    destruct (join_under (root_of cwdt c) z m AM) as (w & W). rewrite W, prefix_always in Q. discriminate. }
  rewrite SF. exists (if f_nocomp c then hset (txt "Content-Encoding") [] (FResp 200 [(txt "Content-Type", txt "text/html; charset=utf-8")] (BList (ns ++ [n]) (list_dir fs c (root_of cwdt c) (root_of cwdt c ++ 47 :: z) (ns ++ [n])))) else FResp 200 [(txt "Content-Type", txt "text/html; charset=utf-8")] (BList (ns ++ [n]) (list_dir fs c (root_of cwdt c) (root_of cwdt c ++ 47 :: z) (ns ++ [n])))).
  eexists. split; [reflexivity|]. split; [destruct (f_nocomp c); reflexivity|]. split; [destruct (f_nocomp c); reflexivity|].
  intros m I. unfold list_dir in I. rewrite map_map in I. cbn [snd] in I. rewrite map_id in I. apply filter_In in I. destruct I as (I & _). unfold entries in I. rewrite A in I. exact I.
Qed.
Example C71_directory_case : let c := FCfg (Some (txt "/srv/www")) (txt "/static") [] [] None None None [] [] 404 [] false true false in
  exists r links, ex_deal c (get (txt "/static/")) = Ok r /\ s_body r = BList [txt "srv"; txt "www"] links /\ In (txt "/static/sub", txt "sub") links /\
  exists r' links', ex_deal c (get (txt "/static/sub")) = Ok r' /\ s_body r' = BList [txt "srv"; txt "www"; txt "sub"] links' /\ In (txt "a.txt") (map snd links').
Proof. do 2 eexists. split; [vm_compute; reflexivity|]. split; [vm_compute; reflexivity|]. split; [vm_compute; intuition|]. do 2 eexists. split; [vm_compute; reflexivity|]. split; [vm_compute; reflexivity|]. vm_compute. intuition. Qed.
(* false of the code for names with a percent sign or a backslash *)
Definition odd_fs : node := Dir [(txt "w", Dir [(txt "%41", File [1] None); (txt "A", File [2] None); (txt "a\b", File [3] None)])].
Definition odd_cfg : fcfg := FCfg (Some (txt "/w")) [] [] [] None None None [] [] 404 [] false true false.
Theorem C71_link_refuted : forall decode, decode (txt "/%41") = Some (txt "/A") ->
  exists r r1 r2, deal decode no_date (fun _ => []) (fun _ _ _ => true) odd_fs [] (txt "/") odd_cfg (get (txt "/")) = Ok r /\
    s_body r = BList [txt "w"] [(txt "/%41", txt "%41"); (txt "/A", txt "A"); (txt "/a/b", txt "a\b")] /\
    deal decode no_date (fun _ => []) (fun _ _ _ => true) odd_fs [] (txt "/") odd_cfg (get (txt "/%41")) = Ok r1 /\ s_body r1 = BFile [txt "w"; txt "A"] [2] None /\
    deal decode no_date (fun _ => []) (fun _ _ _ => true) odd_fs [] (txt "/") odd_cfg (get (txt "/a/b")) = Ok r2 /\ s_status r2 = 404.
Proof.
  intros decode D. do 3 eexists. split; [vm_compute; reflexivity|]. split; [vm_compute; reflexivity|].
  assert (DD : decoded decode (q_path (get (txt "/%41"))) = txt "/A"). { unfold decoded. cbn [get q_path]. change (contains (txt "%") (txt "/%41")) with true. cbv iota. now rewrite D. }
  split; [unfold deal; rewrite DD; vm_compute; reflexivity|]. split; [vm_compute; reflexivity|]. split; vm_compute; reflexivity.
Qed.

(* ---- C72: encoded content is labelled ------------------------------------------------------ *)
Lemma send_enc date fmt seek fs c q m ns e r content part : send_file date fmt seek fs c q m ns e = Ok r -> s_body r = BFile ns content part ->
  hget (txt "Content-Encoding") r = if f_nocomp c then Some [] else e.
Proof.
  unfold send_file. destruct (at_names fs ns) as [[ct mt|]|]; try discriminate. destruct (try_cache date fmt seek c q mt (nlen ct)) as [r'|] eqn:T.
  - intros [= ->] B. apply cache_body in T. congruence.
  - match goal with |- context [after_file date fmt seek c q mt (nlen ct) ?x] => set (r0 := x) end. intros H _.
    assert (EN := after_enc date fmt seek c q mt (nlen ct) r0). destruct (after_file date fmt seek c q mt (nlen ct) r0) as (r1, ok). destruct ok; [|discriminate]. injection H as ->. cbn [fst] in EN. rewrite EN.
    destruct (f_nocomp c); [reflexivity|]. unfold r0. rewrite !hget_hset_ne by discriminate. destruct e; [apply hget_hset|reflexivity].
Qed.
(* C72 of every answer of the server: a file is sent either as itself, without a label,
   or its gzip or br form is sent, which is configured and accepted, with its label; with
   disable_compress the label is empty in both cases *)
Definition looked_up (fs : node) (cwd : list text) (p : text) (ns : list text) : Prop := resolve fs cwd p = Some ns.
Definition sent_as (fs : node) (cwd : list text) (c : fcfg) (q : freq) (real : text) (ns : list text) (label : option text) : Prop :=
  (looked_up fs cwd real ns /\ label = None) \/
  (exists e sfx a, In (e, sfx) [(txt "gzip", txt ".gz"); (txt "br", txt ".br")] /\ In e (f_pre c) /\ q_accept q = Some a /\ occurs e a /\
     looked_up fs cwd (real ++ sfx) ns /\ label = Some e).
(* the path the server takes for the request: the error page, or below the root, or an
   index file of a directory there *)
Definition stands_for (decode : text -> option text) (cwdt : text) (c : fcfg) (q : freq) (real : text) : Prop :=
  f_path404 c = Some real \/
  exists h x, decoded decode (q_path q) = f_prefix c ++ h /\ (h = 47 :: x \/ h = x) /\
    (real = root_of cwdt c ++ 47 :: x \/ exists i, In i (f_index c) /\ real = join (root_of cwdt c ++ 47 :: x) i).
Lemma by_file_label date fmt seek fs cwd c q real r ns content part :
  by_file date fmt seek fs cwd c q real = Ok (Some r) -> s_body r = BFile ns content part ->
  exists label, sent_as fs cwd c q real ns label /\ hget (txt "Content-Encoding") r = (if f_nocomp c then Some [] else label).
Proof.
  intros B S0. unfold by_file in B. destruct (match q_accept q with Some a => find_pre fs cwd (f_pre c) a real | None => None end) as [[e nm]|] eqn:FP.
  - destruct (q_accept q) as [a|] eqn:AC; [|discriminate FP].
    destruct (send_file date fmt seek fs c q _ nm (Some e)) as [r'| |] eqn:SF; try discriminate. injection B as ->.
    assert (NM : ns = nm) by (eapply send_shows; [exact SF|left; eauto]).
    subst nm. exists (Some e). split; [right|rewrite (send_enc _ _ _ _ _ _ _ _ _ _ _ _ SF S0); reflexivity].
    clear - FP AC. induction (f_pre c) as [|f pre IH]; cbn [find_pre] in FP; [discriminate|].
    assert (UP : (exists e0 sfx a0, In (e0, sfx) [(txt "gzip", txt ".gz"); (txt "br", txt ".br")] /\ In e0 pre /\ q_accept q = Some a0 /\ occurs e0 a0 /\ looked_up fs cwd (real ++ sfx) ns /\ Some e = Some e0) ->
      exists e0 sfx a0, In (e0, sfx) [(txt "gzip", txt ".gz"); (txt "br", txt ".br")] /\ In e0 (f :: pre) /\ q_accept q = Some a0 /\ occurs e0 a0 /\ looked_up fs cwd (real ++ sfx) ns /\ Some e = Some e0).
    { intros (e0 & sfx & a0 & H1 & H2 & H3). exists e0, sfx, a0. split; [exact H1|]. split; [right; exact H2|exact H3]. }
    destruct (contains f a) eqn:C; [|auto]. apply contains_ok in C. destruct (leqb f (txt "gzip")) eqn:G.
    + destruct (resolve fs cwd (real ++ txt ".gz")) eqn:RS; [|auto]. injection FP as <- <-. apply leqb_ok in G. subst f. exists (txt "gzip"), (txt ".gz"), a. repeat split; auto; left; reflexivity.
    + destruct (leqb f (txt "br")) eqn:G2; [|auto]. destruct (resolve fs cwd (real ++ txt ".br")) eqn:RS; [|auto]. injection FP as <- <-. apply leqb_ok in G2. subst f. exists (txt "br"), (txt ".br"), a. repeat split; auto; [right; left; reflexivity|left; reflexivity].
  - destruct (resolve fs cwd real) as [nm|] eqn:RS; [|discriminate].
    destruct (send_file date fmt seek fs c q _ nm None) as [r'| |] eqn:SF; try discriminate. injection B as ->.
    assert (NM : ns = nm) by (eapply send_shows; [exact SF|left; eauto]).
    subst nm. exists None. split; [left; split; [exact RS|reflexivity]|]. rewrite (send_enc _ _ _ _ _ _ _ _ _ _ _ _ SF S0). reflexivity.
Qed.
Theorem C72_answer_partial : forall decode date fmt seek fs cwd cwdt c q r ns content part,
  deal decode date fmt seek fs cwd cwdt c q = Ok r -> s_body r = BFile ns content part ->
  exists real label, stands_for decode cwdt c q real /\ sent_as fs cwd c q real ns label /\
    hget (txt "Content-Encoding") r = (if f_nocomp c then Some [] else label).
Proof.
  intros decode date fmt seek fs cwd cwdt c q r ns content part D B.
  assert (ER : forall msg, ret_error date fmt seek fs cwd c q msg = Ok r -> exists real label, stands_for decode cwdt c q real /\ sent_as fs cwd c q real ns label /\ hget (txt "Content-Encoding") r = (if f_nocomp c then Some [] else label)).
  { intros msg E. assert (PE : plain_error c msg = Ok r -> False) by (intros X; eapply plain_shows; [exact X|left; eauto]).
    unfold ret_error in E. destruct (f_status c =? 404); [|destruct (PE E)]. destruct (f_path404 c) as [p|] eqn:P4; [|destruct (PE E)].
    destruct (by_file date fmt seek fs cwd c q p) as [[r'|]| |] eqn:BF; try discriminate E; try (destruct (PE E); fail). injection E as ->.
    destruct (by_file_label _ _ _ _ _ _ _ _ _ _ _ _ BF B) as (label & S1 & S2). exists p, label. split; [left; exact P4|auto]. }
  unfold deal in D. destruct (if leqb (q_path q) (txt "/robots.txt") then f_robots c else None) as [t|].
  { injection D as D. subst r. rewrite plain_body in B. discriminate B. }
  destruct (starts_with (f_prefix c) (q_path q)); [|eapply ER; exact D].
  destruct (strip_prefix (f_prefix c) (decoded decode (q_path q))) as [h|] eqn:P; [|discriminate]. apply strip_prefix_some in P.
  assert (X : exists x, (h = 47 :: x \/ h = x) /\ (if starts_with (txt "/") h then h else txt "/" ++ h) = 47 :: x).
  { destruct (starts_with (txt "/") h) eqn:E; [apply starts_ok in E; destruct E as (x & E); exists x; change (txt "/") with [47] in E; cbn [app] in E; rewrite E; auto|].
    exists h. split; [auto|reflexivity]. }
  destruct X as (x & X1 & X2). rewrite X2 in D.
  destruct (negb (path_starts_with (root_of cwdt c ++ 47 :: x) (root_of cwdt c)) || is_hide c (root_of cwdt c)); [eapply ER; exact D|].
  set (real := if is_dir fs cwd (root_of cwdt c ++ 47 :: x) then find_index fs cwd (f_index c) (root_of cwdt c ++ 47 :: x) else root_of cwdt c ++ 47 :: x) in D.
  assert (RC : real = root_of cwdt c ++ 47 :: x \/ exists i, In i (f_index c) /\ real = join (root_of cwdt c ++ 47 :: x) i).
  { unfold real. destruct (is_dir fs cwd (root_of cwdt c ++ 47 :: x)); [|auto]. apply index_cases. }
  destruct (if is_dir fs cwd real then resolve fs cwd real else None) as [ms|].
  - destruct (f_browse c); [|eapply ER; exact D]. destruct (strip_fails _ _ _ _ _); [discriminate D|]. injection D as D. subst r. destruct (f_nocomp c); discriminate B.
  - destruct (is_hide c (decoded decode (q_path q))); [eapply ER; exact D|].
    destruct (by_file date fmt seek fs cwd c q real) as [[r'|]| |] eqn:BF; cbn [rbind] in D; try discriminate; [|eapply ER; exact D].
    injection D as ->. destruct (by_file_label _ _ _ _ _ _ _ _ _ _ _ _ BF B) as (label & S1 & S2). exists real, label. split; [right; exists h, x; auto|auto].
Qed.
(* false of the code with disable_compress: whatever file is sent, compressed or not, the
   label is empty *)
Theorem C72_label_refuted : forall decode date fmt seek fs cwd cwdt c q r ns content part,
  deal decode date fmt seek fs cwd cwdt c q = Ok r -> s_body r = BFile ns content part -> f_nocomp c = true -> hget (txt "Content-Encoding") r = Some [].
Proof.
  intros decode date fmt seek fs cwd cwdt c q r ns content part D B NC. destruct (C72_answer_partial _ _ _ _ _ _ _ _ _ _ _ _ _ D B) as (real & label & _ & _ & E). now rewrite NC in E.
Qed.
Example C72_label_case : exists r, ex_deal (FCfg (Some (txt "/srv/www")) (txt "/static") [] [] None None None [] [] 404 [txt "gzip"] true true false) (FReq (txt "/static/sub/a.txt") false (Some (txt "gzip")) None None None None None) = Ok r /\
  s_body r = BFile [txt "srv"; txt "www"; txt "sub"; txt "a.txt.gz"] [5] None /\ hget (txt "Content-Encoding") r = Some [].
Proof. vm_compute. eexists. split; [reflexivity|]. split; reflexivity. Qed.
Example C72_answer_case : let c := FCfg (Some (txt "/srv/www")) (txt "/static") [] [] None None None [] [] 404 [txt "gzip"] false true false in
  exists r, ex_deal c (FReq (txt "/static/sub/a.txt") false (Some (txt "br, gzip")) None None None None None) = Ok r /\
    s_body r = BFile [txt "srv"; txt "www"; txt "sub"; txt "a.txt.gz"] [5] None /\ hget (txt "Content-Encoding") r = Some (txt "gzip").
Proof. vm_compute. eexists. split; [reflexivity|]. split; reflexivity. Qed.

Print Assumptions C37_inside_partial.
Print Assumptions C37_check_void.
Print Assumptions C37_anyfile_refuted.
Print Assumptions C37_alias_refuted.
Print Assumptions C38_hidden_partial.
Print Assumptions C38_index_refuted.
Print Assumptions C38_compressed_refuted.
Print Assumptions C38_slash_refuted.
Print Assumptions C39_answer_partial.
Print Assumptions C40_tag.
Print Assumptions C40_conditional_partial.
Print Assumptions C40_epoch_refuted.
Print Assumptions C67_changed_partial.
Print Assumptions C67_stale_refuted.
Print Assumptions C68_crash.
Print Assumptions C68_safe_partial.
Print Assumptions C68_crash_refuted.
Print Assumptions C68_index_refuted.
Print Assumptions C68_status_refuted.
Print Assumptions C70_status_partial.
Print Assumptions C70_status_refuted.
Print Assumptions C71_link_partial.
Print Assumptions C71_directory_partial.
Print Assumptions C71_link_refuted.
Print Assumptions C72_label_refuted.
Print Assumptions C72_answer_partial.

(* C106, full statement: the media type of a file is the one configured for its
   extension, or else the built-in one, or else the default.  Proved, of every
   answer to an unconditional request: so it is when only one of the first two
   exists ... *)
Theorem C106_type_partial : forall decode date fmt seek fs cwd cwdt c q ns content mt d y e r,
  asks_for fs cwd cwdt c q ns content mt -> q_inm q = None -> q_ims q = None ->
  q_path q = f_prefix c ++ d ++ 47 :: y ++ 46 :: e -> ~ In 47 (y ++ 46 :: e) -> ~ In 46 e -> y <> [] -> e <> [] ->
  deal decode date fmt seek fs cwd cwdt c q = Ok r ->
  exists m, hget (txt "Content-Type") r = Some (m ++ txt "; charset=utf-8") /\
    (lookup leqb e default_mime = None -> lookup leqb e (f_ext_mime c) = None -> m = f_mime c) /\
    (lookup leqb e default_mime = None -> forall t, lookup leqb e (f_ext_mime c) = Some t -> m = t) /\
    (lookup leqb e (f_ext_mime c) = None -> forall t, lookup leqb e default_mime = Some t -> m = t).
Proof.
  intros decode date fmt seek fs cwd cwdt c q ns content mt d y e r A B C D E F G H I.
  exists (get_mimetype c e). split; [eapply asks_type; eassumption|]. unfold get_mimetype.
  destruct (lookup leqb e default_mime), (lookup leqb e (f_ext_mime c)); repeat split; intros; congruence.
Qed.
(* ... but when both exist the configured one is ignored. *)
Theorem C106_ignored_refuted : forall decode date fmt seek fs cwd cwdt c q ns content mt d y e r t u,
  asks_for fs cwd cwdt c q ns content mt -> q_inm q = None -> q_ims q = None ->
  q_path q = f_prefix c ++ d ++ 47 :: y ++ 46 :: e -> ~ In 47 (y ++ 46 :: e) -> ~ In 46 e -> y <> [] -> e <> [] ->
  lookup leqb e (f_ext_mime c) = Some t -> lookup leqb e default_mime = Some u ->
  deal decode date fmt seek fs cwd cwdt c q = Ok r ->
  hget (txt "Content-Type") r = Some (u ++ txt "; charset=utf-8").
Proof.
  intros decode date fmt seek fs cwd cwdt c q ns content mt d y e r t u A B C D E F G H I J K.
  rewrite (asks_type _ _ _ _ _ _ _ _ _ _ _ _ _ _ _ _ A B C D E F G H K). unfold get_mimetype. rewrite J. reflexivity.
Qed.
Example C106_example :
  let c := FCfg (Some (txt "/srv/www")) (txt "/static") (txt "application/octet-stream") [(txt "txt", txt "text/x-mine"); (txt "foo", txt "text/foo")] None None None [] [] 404 [] false true false in
  exists r, ex_deal c (get (txt "/static/sub/a.txt")) = Ok r /\ hget (txt "Content-Type") r = Some (txt "text/plain; charset=utf-8").
Proof. eexists. vm_compute. split; reflexivity. Qed.
Print Assumptions C106_type_partial.
Print Assumptions C106_ignored_refuted.
