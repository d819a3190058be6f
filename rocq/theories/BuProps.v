(* C175: a proxy section built with builder calls. *)
From Coq Require Import String Lia.
From Verif Require Import Base Text TextOps AddrModel ConfModel ProtModel CoreModel BuModel BuSpec.
Open Scope N_scope.

Lemma build_snoc cs c : build (cs ++ [c]) = bu_step (build cs) c.
Proof. unfold build. now rewrite fold_left_app. Qed.
Lemma last_snoc_none {A} (says : bcall -> option A) cs c d v : says c = None -> last_said says cs d v -> last_said says (cs ++ [c]) d v.
Proof.
  intros N [[-> H]|(b & x & a & -> & H & K)].
  - left. split; [reflexivity|]. intros y Hy. apply in_app_iff in Hy as [Hy|[<-|[]]]; auto.
  - right. exists b, x, (a ++ [c]). split; [now rewrite <- app_assoc|]. split; [exact H|]. intros y Hy. apply in_app_iff in Hy as [Hy|[<-|[]]]; auto.
Qed.
Lemma built_last {A} (says : bcall -> option A) (get : pbuilt -> A) :
  (forall p c, get (bu_step p c) = match says c with Some v => v | None => get p end) ->
  forall cs, last_said says cs (get bu_default) (get (build cs)).
Proof.
  intros H cs. induction cs as [|c cs IH] using rev_ind; [left; split; [reflexivity|intros c []]|].
  rewrite build_snoc, H. destruct (says c) as [v|] eqn:E.
  - right. exists cs, c, []. split; [reflexivity|]. split; [exact E|intros x []].
  - now apply last_snoc_none.
Qed.

(* C175, full statement: every setting of the proxy section is what the last call for it
   said, else its default; flags are added up; mappings are kept in order; every setting has
   a call.  The last part is false of the code. *)
Theorem C175_settings_partial : forall cs, let p := build cs in
  last_said says_bind cs (Some (default_port)) (bu_bind p) /\ last_said says_center cs None (bu_center p) /\
  last_said says_server cs None (bu_server p) /\ last_said says_ts cs false (bu_ts p) /\ last_said says_tc cs false (bu_tc p) /\
  last_said says_cert cs None (bu_cert p) /\ last_said says_key cs None (bu_key p) /\ last_said says_domain cs None (bu_domain p) /\
  last_said says_user cs None (bu_user p) /\ last_said says_pass cs None (bu_pass p) /\ last_said says_udp cs None (bu_udp p) /\
  last_said says_http cs None (bu_http p) /\ last_said says_https cs None (bu_https p) /\
  last_said says_tcp cs None (bu_tcp p) /\ last_said says_proxy cs None (bu_proxy p).
Proof.
  intros cs p. subst p.
  repeat match goal with |- _ /\ _ => split end;
    match goal with |- last_said ?s cs ?d (?g (build cs)) => replace d with (g bu_default) by reflexivity end;
    apply built_last; intros [] []; reflexivity.
Qed.
Theorem C175_flags : forall cs i, N.testbit (bu_flag (build cs)) i = true <-> bit_asked i cs.
Proof.
  intros cs i. induction cs as [|c cs IH] using rev_ind.
  - cbn [build fold_left]. unfold bit_asked. assert (T : N.testbit 7 i = true <-> i < 3).
    { destruct i as [|[[p|p|]|[p|p|]|]]; cbn; split; intros H; try discriminate; try reflexivity; lia. }
    change (bu_flag bu_default) with 7. rewrite T. split; [intros H; right; split; [exact H|intros x []]|].
    intros [(b & c & a & E & _)|[H _]]; [destruct b; discriminate|exact H].
  - rewrite build_snoc. assert (F : bu_flag (bu_step (build cs) c) = match c with BFlag f => f | BAddFlag f => N.lor (bu_flag (build cs)) f | _ => bu_flag (build cs) end).
    { destruct (build cs), c; reflexivity. }
    rewrite F. clear F.
    assert (G : bit_asked i (cs ++ [c]) <-> asks i c = true \/ (sets_all c = false /\ bit_asked i cs)).
    { unfold bit_asked. split.
      - intros [(b & x & a & E & H & K)|[H K]].
        + destruct a as [|y a _] using rev_ind.
          * apply app_inj_tail in E as [-> ->]. now left.
          * rewrite app_comm_cons, app_assoc in E. apply app_inj_tail in E as [-> ->]. right. split; [apply K, in_app_iff; right; now left|].
            left. exists b, x, a. split; [reflexivity|]. split; [exact H|]. intros z Hz. apply K, in_app_iff. now left.
        + right. split; [apply K, in_app_iff; right; now left|]. right. split; [exact H|]. intros z Hz. apply K, in_app_iff. now left.
      - intros [H|[S0 [(b & x & a & -> & H & K)|[H K]]]].
        + left. exists cs, c, []. split; [reflexivity|]. split; [exact H|intros x []].
        + left. exists b, x, (a ++ [c]). split; [now rewrite <- app_assoc|]. split; [exact H|]. intros z Hz. apply in_app_iff in Hz as [Hz|[<-|[]]]; auto.
        + right. split; [exact H|]. intros z Hz. apply in_app_iff in Hz as [Hz|[<-|[]]]; auto. }
    rewrite G. destruct c; cbn [asks sets_all]; rewrite <- ?IH; try (split; [intros H; right; split; [reflexivity|exact H]|intros [H|[_ H]]; [discriminate|exact H]]).
    + split; [now left|]. intros [H|[H _]]; [exact H|discriminate].
    + rewrite N.lor_spec, Bool.orb_true_iff. tauto.
Qed.
Theorem C175_mappings : forall cs, mappings_of cs (bu_maps (build cs)).
Proof.
  assert (K : forall cs ms c, mappings_of cs ms -> mappings_of (cs ++ [c]) (ms ++ match c with BMapping m => [m] | _ => [] end)).
  { intros cs ms c H. induction H; cbn [app].
    - destruct c; try (apply mo_other; [intros m E; discriminate|apply mo_nil]). apply mo_map, mo_nil.
    - now apply mo_map.
    - now apply mo_other. }
  induction cs as [|c cs IH] using rev_ind; [apply mo_nil|]. rewrite build_snoc.
  replace (bu_maps (bu_step (build cs) c)) with (bu_maps (build cs) ++ match c with BMapping m => [m] | _ => [] end); [now apply K|].
  destruct (build cs), c; cbn; rewrite ?app_nil_r; reflexivity.
Qed.
Lemma said_one {A} (says : bcall -> option A) cs d v w : last_said says cs d v -> last_said says cs d w -> v = w.
Proof.
  intros [[-> H]|(b & c & a & -> & H & K)] [[-> H2]|(b2 & c2 & a2 & E & H2 & K2)]; auto.
  - subst cs. rewrite H in H2; [discriminate|]. apply in_app_iff. right. now left.
  - rewrite H2 in H; [discriminate|]. apply in_app_iff. right. now left.
  - revert b2 E. induction b as [|x b IH]; intros b2 E.
    + destruct b2 as [|z b2]; cbn [app] in E; injection E as <- ->; [congruence|]. rewrite K in H2; [discriminate|]. apply in_app_iff. right. now left.
    + destruct b2 as [|z b2]; cbn [app] in E.
      * injection E as -> <-. rewrite K2 in H; [discriminate|]. apply in_app_iff. right. now left.
      * injection E as _ E. exact (IH b2 E).
Qed.
Lemma listens_in can_bind l r k a : listens can_bind l = Some r -> (In (k, a) r <-> In (k, Some a) l).
Proof.
  unfold listens. assert (G : forall l acc, fold_left (fun acc x => match acc, listen can_bind (fst x) (snd x) with Some r, Some y => Some (r ++ y) | _, _ => None end) l acc = Some r ->
    exists r0, acc = Some r0 /\ (In (k, a) r <-> In (k, a) r0 \/ In (k, Some a) l)).
  { clear l. induction l as [|[k0 o] l IH]; intros acc H; cbn [fold_left] in H; [exists r; cbn; tauto|].
    apply IH in H as (r1 & E & H). cbn [fst snd] in E. destruct acc as [r0|]; [|discriminate]. exists r0. split; [reflexivity|]. rewrite H.
    unfold listen in E. destruct o as [x|].
    - destruct (can_bind x); [|discriminate]. injection E as <-. rewrite in_app_iff. cbn. intuition congruence.
    - injection E as <-. rewrite app_nil_r. cbn. intuition congruence. }
  intros H. apply G in H as (r0 & [= <-] & H). rewrite H. cbn. tauto.
Qed.
Definition not_https (x : lkind * saddr) : bool := match fst x with LHttps => false | _ => true end.
Lemma start_listen read oc ok pair root can_bind reach c b : proxy_start read oc ok pair root can_bind reach c = BOk b ->
  exists r (m : bool), listens can_bind [(LClient, p_bind c); (LCenter, p_center c); (LHttp, p_http c); (LHttps, p_https c); (LTcp, p_tcp c); (LProxy, p_proxy c)] = Some r /\
    b_listen b = (if m then r else filter not_https r) /\ (m = true -> get_map_tls_accept read oc ok pair c = true).
Proof.
  unfold proxy_start. intros H.
  destruct (get_tls_accept read oc ok pair root c); [| |discriminate];
    (match type of H with match ?x with _ => _ end = _ => destruct x as [[|]|]; [|discriminate|] end);
    (match type of H with match ?x with _ => _ end = _ => destruct x as [r|]; [|discriminate] end);
    injection H as <-; exists r; eexists; (split; [reflexivity|]); cbn [b_listen]; (split; [reflexivity|]); destruct (p_https c); intros M; try discriminate; exact M.
Qed.
(* Started as it is, the section listens where the calls said, and on the default port without
   a bind call; http, tcp and proxy mappings where they were said last. *)
Theorem C175_listens_partial : forall read oc ok pair root can_bind reach cs b,
  proxy_start read oc ok pair root can_bind reach (to_pconf (build cs)) = BOk b ->
  (forall a, In (LClient, a) (b_listen b) <-> last_said says_bind cs (Some (default_port)) (Some a)) /\
  (forall a, In (LCenter, a) (b_listen b) <-> last_said says_center cs None (Some a)) /\
  (forall a, In (LHttp, a) (b_listen b) <-> last_said says_http cs None (Some a)) /\
  (forall a, In (LTcp, a) (b_listen b) <-> last_said says_tcp cs None (Some a)) /\
  (forall a, In (LProxy, a) (b_listen b) <-> last_said says_proxy cs None (Some a)) /\
  (forall a, In (LHttps, a) (b_listen b) -> last_said says_https cs None (Some a)).
Proof.
  intros read oc ok pair root can_bind reach cs b H. destruct (C175_settings_partial cs) as (S1 & S2 & _ & _ & _ & _ & _ & _ & _ & _ & _ & S3 & S4 & S5 & S6).
  destruct (start_listen _ _ _ _ _ _ _ _ _ H) as (r & m & L & E & _). cbn [to_pconf p_bind p_center p_http p_https p_tcp p_proxy] in L. rewrite E.
  pose proof (fun k a => listens_in _ _ _ k a L) as K.
  assert (Q : forall k a, k <> LHttps -> (In (k, a) (if m : bool then r else filter not_https r) <-> In (k, a) r)).
  { intros k a N. destruct m; [reflexivity|]. rewrite filter_In. unfold not_https. cbn [fst]. destruct k; tauto. }
  assert (W : forall a (v : option saddr) d (says : bcall -> option (option saddr)), last_said says cs d v -> (v = Some a <-> last_said says cs d (Some a))).
  { intros a v d says X. split; [intros ->; exact X|intros Y; exact (said_one _ _ _ _ _ X Y)]. }
  split; [|split; [|split; [|split; [|split]]]]; intros a.
  - rewrite Q by discriminate. rewrite K, <- (W a _ _ _ S1). cbn. intuition congruence.
  - rewrite Q by discriminate. rewrite K, <- (W a _ _ _ S2). cbn. intuition congruence.
  - rewrite Q by discriminate. rewrite K, <- (W a _ _ _ S3). cbn. intuition congruence.
  - rewrite Q by discriminate. rewrite K, <- (W a _ _ _ S5). cbn. intuition congruence.
  - rewrite Q by discriminate. rewrite K, <- (W a _ _ _ S6). cbn. intuition congruence.
  - intros I. assert (J : In (LHttps, a) r) by (destruct m; [exact I|apply filter_In in I; tauto]).
    apply K in J. apply (W a _ _ _ S4). cbn in J. intuition congruence.
Qed.
(* False of the code: no calls set the server id, the certificate and key of the https mapping or
   the check of certificates both ways; there is always a client port. *)
Theorem C175_unset_refuted : forall cs, bu_sid (build cs) = 0 /\ bu_map_cert (build cs) = None /\ bu_map_key (build cs) = None /\
  bu_two_way (build cs) = false /\ bu_bind (build cs) <> None.
Proof.
  intros cs. induction cs as [|c cs IH] using rev_ind; [cbn; repeat split; discriminate|]. rewrite build_snoc.
  destruct (build cs), c; cbn in *; try exact IH. intuition discriminate.
Qed.
(* So the https mapping is served with the certificate and key built in, or not at all. *)
Theorem C175_https_refuted : forall read oc ok pair root can_bind reach cs b a,
  proxy_start read oc ok pair root can_bind reach (to_pconf (build cs)) = BOk b -> In (LHttps, a) (b_listen b) -> pair oc ok = true.
Proof.
  intros read oc ok pair root can_bind reach cs b a H I. destruct (C175_unset_refuted cs) as (_ & C & D & _).
  destruct (start_listen _ _ _ _ _ _ _ _ _ H) as (r & m & _ & E & M). rewrite E in I. destruct m; [|apply filter_In in I as [_ I]; discriminate].
  specialize (M eq_refl). unfold get_map_tls_accept in M. cbn [to_pconf p_map_cert p_map_key] in M. rewrite C, D in M. exact M.
Qed.
(* False of the code: with the flag for UDP come the flags for https and socks5. *)
Theorem C175_udp_flag_refuted : forall cs, let b := bu_flag (build (cs ++ [BFlag 0; BAddFlag f_udp])) in
  f_contains b f_udp = true /\ f_contains b f_https = true /\ f_contains b f_socks5 = true /\ f_contains b f_http = false.
Proof. intros cs. unfold build. rewrite fold_left_app. cbn [fold_left]. destruct (fold_left bu_step cs bu_default). vm_compute. repeat split. Qed.
(* A configuration made of it has that section and nothing else; control over HTTP is off. *)
Theorem C175_option : forall p, let o := new_by_proxy p in
  bo_proxy o = Some p /\ bo_http o = false /\ bo_stream o = false /\ bo_no_control o = true /\ is_empty_listen o = false.
Proof. intros p. repeat split. Qed.
Theorem C175_empty : forall o, is_empty_listen o = true <-> bo_proxy o = None /\ bo_http o = false /\ bo_stream o = false.
Proof. intros [p h s ? ? ? ? ?]. unfold is_empty_listen. cbn. destruct p, h, s; cbn; intuition discriminate. Qed.

Example C175_demo :
  let a := SAddr (V4 5) 80 in
  let p := build [BUser (Some (txt "u")); BBind default_port; BFlag f_tcp; BBind a; BUser None; BAddFlag f_http] in
  (bu_bind p, bu_user p, bu_flag p) = (Some a, None, 9) /\
  (match proxy_start (fun _ => None) [1] 2 (fun _ _ => true) (fun _ => true) (fun _ => true) (fun _ _ => true)
           (to_pconf (build [BCenter a; BHttps (Some a)])) with BOk b => b_listen b | _ => [] end) = [(LClient, default_port); (LCenter, a); (LHttps, a)].
Proof. vm_compute. split; reflexivity. Qed.
Print Assumptions C175_settings_partial.
Print Assumptions C175_flags.
Print Assumptions C175_mappings.
Print Assumptions C175_listens_partial.
Print Assumptions C175_unset_refuted.
Print Assumptions C175_https_refuted.
Print Assumptions C175_udp_flag_refuted.
Print Assumptions C175_option.
Print Assumptions C175_empty.
