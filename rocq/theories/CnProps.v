(* C157: CONNECT tunnels of the HTTP proxy. *)
From Coq Require Import String.
From Verif Require Import Base Text TextOps ConfModel AddrModel SocksModel HttpProxyModel HttpProxyProofs HttpProxyProps CnModel.
Open Scope N_scope.

(* ---- specification: two pipes -------------------------------------------------------- *)
(* what a side sends before it ends its direction or the connection breaks *)
Definition from_client (e : cnev) : bytes := match e with CnReq raw _ _ _ _ | CnData raw => raw | _ => [] end.
Definition from_target (e : cnev) : bytes := match e with CnFrom b => b | _ => [] end.
Fixpoint until (stop : cnev -> bool) (sent : cnev -> bytes) (es : list cnev) : bytes :=
  match es with [] => [] | e :: es' => if stop e then [] else sent e ++ until stop sent es' end.
Definition client_stops (e : cnev) : bool := match e with CnClientEof | CnBroken => true | _ => false end.
Definition target_stops (e : cnev) : bool := match e with CnTargetEof | CnBroken => true | _ => false end.
(* what was received *)
Definition got_target (o : list cnout) : bytes := flat_map (fun x => match x with CnToTarget _ b => b | _ => [] end) o.
Definition got_client (o : list cnout) : bytes := flat_map (fun x => match x with CnToClient b => b | _ => [] end) o.
Definition answers (o : list cnout) : list hans := flat_map (fun x => match x with CnAnswer a => [a] | _ => [] end) o.
Definition only_to (h : text) (o : list cnout) : Prop := forall x, In x o -> match x with CnToTarget h' _ => h' = h | CnEv _ | CnAnswer _ => False | _ => True end.

(* the first byte is the letter c, capital or small: what is taken for CONNECT *)
Definition like_connect (raw : bytes) : Prop := exists b rest, raw = b :: rest /\ In b (txt "Cc").
Lemma one_only_ok raw : one_only raw = true <-> like_connect raw.
Proof.
  unfold one_only, like_connect. destruct raw as [|b raw]; [split; [discriminate|intros (? & ? & E & _); discriminate E]|].
  change (txt "Cc") with [67; 99]. cbn [In]. split.
  - intros H. exists b, raw. split; [reflexivity|]. destruct (N.eqb_spec b 67), (N.eqb_spec b 99); cbn [orb] in H; try discriminate H; auto.
  - intros (b' & r' & [= <- <-] & [<-|[<-|[]]]); reflexivity.
Qed.
Lemma one_only_no raw : one_only raw = false <-> ~ like_connect raw.
Proof. rewrite <- one_only_ok. destruct (one_only raw); split; intros H; try discriminate; try reflexivity; try (intros X; discriminate X). now destruct H. Qed.

Section Thms.
  Context (cf : hcfg) (given_back : bytes -> bytes) (err_ends : bool).
  Notation step := (cnstep cf given_back err_ends).
  Notation run := (cnrun cf given_back err_ends).

  Lemma end_run s es : cn_phase s = CnEnd -> run s es = (s, []).
  Proof. intros E. induction es as [|e es IH]; [reflexivity|]. cbn [cnrun]. unfold cnstep. rewrite E, IH. reflexivity. Qed.
  Lemma got_target_app a b : got_target (a ++ b) = got_target a ++ got_target b. Proof. apply flat_map_app. Qed.
  Lemma got_client_app a b : got_client (a ++ b) = got_client a ++ got_client b. Proof. apply flat_map_app. Qed.

  Lemma tunnel_run es : forall h c t st only, c || t = true ->
    let (s', o) := run (Cn (CnTunnel h c t) st only) es in
    got_target o = (if c then until client_stops from_client es else []) /\
    got_client o = (if t then until target_stops from_target es else []) /\ only_to h o.
  Proof.
    induction es as [|e es IH]; intros h c t st only CT; cbn [cnrun].
    - destruct c, t; (split; [reflexivity|]); (split; [reflexivity|intros x []]).
    - assert (K : forall c' t' o1, only_to h o1 ->
        (c' || t' = false \/ c' || t' = true) ->
        let (s2, o2) := run (relay_end h c' t' (Cn (CnTunnel h c t) st only)) es in
        got_target (o1 ++ o2) = got_target o1 ++ (if c' then until client_stops from_client es else []) /\
        got_client (o1 ++ o2) = got_client o1 ++ (if t' then until target_stops from_target es else []) /\ only_to h (o1 ++ o2)).
      { intros c' t' o1 O1 [F|F]; unfold relay_end; rewrite F; cbn [cn_st cn_only].
        - rewrite end_run by reflexivity. apply orb_false_elim in F. destruct F as (-> & ->). rewrite !app_nil_r. auto.
        - specialize (IH h c' t' st only F). destruct (run (Cn (CnTunnel h c' t') st only) es) as [s2 o2]. destruct IH as (I1 & I2 & I3).
          rewrite got_target_app, got_client_app, I1, I2. split; [reflexivity|]. split; [reflexivity|]. intros x H. apply in_app_or in H. destruct H; [apply O1|apply I3]; assumption. }
      assert (SM : relay_end h c t (Cn (CnTunnel h c t) st only) = Cn (CnTunnel h c t) st only) by (unfold relay_end; rewrite CT; reflexivity).
      assert (NN : forall y : list cnout, y = [] -> only_to h y) by (intros y -> x []).
      assert (DT : forall raw, only_to h (match raw with [] => [] | _ => [CnToTarget h raw] end) /\ got_target (match raw with [] => [] | _ => [CnToTarget h raw] end) = raw /\ got_client (match raw with [] => [] | _ => [CnToTarget h raw] end) = []).
      { intros [|x raw]; [split; [apply NN; reflexivity|split; reflexivity]|]. split; [intros y [<-|[]]; reflexivity|]. split; [cbn; now rewrite app_nil_r|reflexivity]. }
      assert (DC : forall b, only_to h (match b with [] => [] | _ => [CnToClient b] end) /\ got_client (match b with [] => [] | _ => [CnToClient b] end) = b /\ got_target (match b with [] => [] | _ => [CnToClient b] end) = []).
      { intros [|x b]; [split; [apply NN; reflexivity|split; reflexivity]|]. split; [intros y [<-|[]]; exact I|]. split; [cbn; now rewrite app_nil_r|reflexivity]. }
      assert (C2 : forall c' t', c' || t' = false \/ c' || t' = true) by (intros; destruct c', t'; auto).
      unfold cnstep. cbn [cn_phase].
      destruct e as [raw q dial reply extra|raw|b| | |]; cbn [until client_stops target_stops from_client from_target].
      + destruct (DT raw) as (D1 & D2 & D3).
        destruct c; [specialize (K true t _ D1 (C2 _ _))|specialize (K false t [] (NN _ eq_refl) (C2 _ _))]; rewrite SM in K; destruct (run _ es) as [s2 o2]; destruct K as (K1 & K2 & K3); rewrite ?D2, ?D3 in *;
          (split; [exact K1|]; split; [rewrite K2; destruct t; reflexivity|exact K3]).
      + destruct (DT raw) as (D1 & D2 & D3).
        destruct c; [specialize (K true t _ D1 (C2 _ _))|specialize (K false t [] (NN _ eq_refl) (C2 _ _))]; rewrite SM in K; destruct (run _ es) as [s2 o2]; destruct K as (K1 & K2 & K3); rewrite ?D2, ?D3 in *;
          (split; [exact K1|]; split; [rewrite K2; destruct t; reflexivity|exact K3]).
      + destruct (DC b) as (D1 & D2 & D3).
        destruct t; [specialize (K c true _ D1 (C2 _ _))|specialize (K c false [] (NN _ eq_refl) (C2 _ _))]; rewrite SM in K; destruct (run _ es) as [s2 o2]; destruct K as (K1 & K2 & K3); rewrite ?D2, ?D3 in *;
          (split; [rewrite K1; destruct c; reflexivity|]; split; [exact K2|exact K3]).
      + destruct c.
        * specialize (K false t [CnShutTarget]). destruct (run (relay_end h false t _) es) as [s2 o2]. destruct K as (K1 & K2 & K3); [intros x [<-|[]]; exact I|apply C2|].
          split; [exact K1|]. split; [rewrite K2; destruct t; reflexivity|exact K3].
        * specialize (K false t [] (NN _ eq_refl) (C2 _ _)). rewrite SM in K. destruct (run _ es) as [s2 o2]. destruct K as (K1 & K2 & K3).
          split; [exact K1|]. split; [rewrite K2; destruct t; reflexivity|exact K3].
      + destruct t.
        * specialize (K c false [CnShutClient]). destruct (run (relay_end h c false _) es) as [s2 o2]. destruct K as (K1 & K2 & K3); [intros x [<-|[]]; exact I|apply C2|].
          split; [rewrite K1; destruct c; reflexivity|]. split; [exact K2|exact K3].
        * specialize (K c false [] (NN _ eq_refl) (C2 _ _)). rewrite SM in K. destruct (run _ es) as [s2 o2]. destruct K as (K1 & K2 & K3).
          split; [rewrite K1; destruct c; reflexivity|]. split; [exact K2|exact K3].
      + rewrite end_run by reflexivity. destruct c, t; (split; [reflexivity|]; split; [reflexivity|apply NN; reflexivity]).
  Qed.

  (* A connection that begins with an accepted CONNECT: the target is connected to, the client
     gets 200, and from then on each side receives exactly what the other sends, until that
     side ends its direction or the connection breaks; the end of one direction leaves the
     other one open.  Bytes that came with the request arrive if the server gives them back. *)
  Theorem C157_tunnel_partial : forall raw q h reply extra es s o,
    like_connect raw -> q_connect q = true -> q_host q = Some h -> carries cf q ->
    run cn0 (CnReq raw q true reply extra :: es) = (s, o) ->
    exists o', o = CnEv (HDial h) :: CnEv (HTunnel h) :: CnAnswer (HStatus 200) :: o' /\ only_to h o' /\
      got_target o' = given_back extra ++ until client_stops from_client es /\
      got_client o' = until target_stops from_target es.
  Proof.
    intros raw q h reply extra es s o ON CO HO CA R. rewrite <- one_only_ok in ON. cbn [cnrun] in R. unfold cnstep in R. cbn [cn_phase cn0 cn_only cn_st] in R.
    assert (OP : h_operate cf (HSt None None) q true reply = (HSt None (Some h), [HDial h; HTunnel h], Ok (HStatus 200))).
    { unfold h_operate. cbn [k_conn]. rewrite HO, CO. cbn [negb]. unfold carries in CA. destruct (h_auth cf) as [[u p]|]; [|reflexivity]. destruct CA as (v & -> & ->). reflexivity. }
    rewrite OP, ON in R. unfold take_over in R. cbn [k_tunnel] in R.
    pose proof (tunnel_run es h true true (HSt None (Some h)) (Some true) eq_refl) as T.
    destruct (run (Cn (CnTunnel h true true) (HSt None (Some h)) (Some true)) es) as [s2 o2]. injection R as _ <-. destruct T as (T1 & T2 & T3).
    cbn [map app]. eexists. split; [reflexivity|]. rewrite <- app_assoc. cbn [app]. rewrite got_target_app, got_client_app, T1, T2. split; [|split].
    - intros x H. apply in_app_or in H. destruct H as [H|H]; [|apply T3; exact H]. destruct (given_back extra); [destruct H|]. destruct H as [<-|[]]. reflexivity.
    - f_equal. destruct (given_back extra) as [|b l]; [reflexivity|]. cbn. now rewrite app_nil_r.
    - destruct (given_back extra); reflexivity.
  Qed.
  (* false of the code, if into_io gives back the connection alone: what the client sent
     together with the request does not arrive *)
  Theorem C157_early_refuted : forall raw q h reply extra es s o,
    (forall b, given_back b = []) -> extra <> [] -> like_connect raw -> q_connect q = true -> q_host q = Some h -> carries cf q ->
    run cn0 (CnReq raw q true reply extra :: es) = (s, o) ->
    In (CnAnswer (HStatus 200)) o /\ got_target o = until client_stops from_client es /\ got_target o <> extra ++ until client_stops from_client es.
  Proof.
    intros raw q h reply extra es s o GB NE ON CO HO CA R. destruct (C157_tunnel_partial _ _ _ _ _ _ _ _ ON CO HO CA R) as (o' & -> & _ & G & _).
    split; [right; right; left; reflexivity|]. rewrite GB in G. cbn [app] in G. split; [exact G|]. change (got_target o' <> extra ++ until client_stops from_client es). rewrite G.
    intros E. apply NE. apply (f_equal (@length N)) in E. rewrite app_length in E. destruct extra; [reflexivity|]. cbn [length] in E. lia.
  Qed.

  (* what goes wrong on connections that do not begin with C *)
  Definition mute (s : cn) : Prop :=
    match cn_phase s with CnEnd => True | CnHttp => cn_only s = Some false | CnTunnel _ c _ => c = false end.
  Lemma mute_take st : forall s' o, take_over given_back st (Some false) false [] = (s', o) -> (forall b, given_back [] = b -> b = []) ->
    mute s' /\ got_target o = [].
  Proof.
    intros s' o H G. unfold take_over in H. destruct (k_tunnel st); injection H as <- <-; [|split; [exact I|reflexivity]].
    split; [reflexivity|]. rewrite (G _ eq_refl). reflexivity.
  Qed.
  Lemma ev_quiet ev : got_target (map CnEv ev) = [].
  Proof. induction ev; [reflexivity|assumption]. Qed.
  Lemma mute_step s e s' o : given_back [] = [] -> mute s -> step s e = (s', o) -> mute s' /\ got_target o = [].
  Proof.
    intros G M H. unfold cnstep in H. unfold mute in M. destruct (cn_phase s) as [|h c t|] eqn:PH.
    - rewrite M in H. destruct e as [raw q dial reply extra|b|b| | |].
      + destruct (h_operate cf (cn_st s) q dial reply) as [[st ev] r]. destruct r as [a|e|].
        * injection H as <- <-. split; [reflexivity|]. rewrite got_target_app, ev_quiet. reflexivity.
        * destruct err_ends; injection H as <- <-; (split; [reflexivity|apply ev_quiet]).
        * injection H as <- <-. split; [exact I|apply ev_quiet].
      + injection H as <- <-. split; [exact I|reflexivity].
      + injection H as <- <-. split; [unfold mute; rewrite PH; exact M|reflexivity].
      + apply (mute_take _ _ _ H). intros b <-. exact G.
      + injection H as <- <-. split; [unfold mute; rewrite PH; exact M|reflexivity].
      + injection H as <- <-. split; [exact I|reflexivity].
    - subst c. assert (SM : mute s) by (unfold mute; rewrite PH; reflexivity).
      destruct e as [raw q dial reply extra|b|b| | |].
      + injection H as <- <-. auto.
      + injection H as <- <-. auto.
      + destruct t; injection H as <- <-; (split; [exact SM|]); [destruct b|]; reflexivity.
      + injection H as <- <-. auto.
      + destruct t; injection H as <- <-; [|auto]. split; [exact I|reflexivity].
      + injection H as <- <-. split; [exact I|reflexivity].
    - injection H as <- <-. split; [unfold mute; rewrite PH; exact I|reflexivity].
  Qed.
  Lemma mute_run es : forall s s' o, given_back [] = [] -> mute s -> run s es = (s', o) -> got_target o = [].
  Proof.
    induction es as [|e es IH]; intros s s' o G M R; cbn [cnrun] in R; [injection R as _ <-; reflexivity|].
    destruct (step s e) as [s1 o1] eqn:ST. destruct (run s1 es) as [s2 o2] eqn:RN. injection R as _ <-.
    destruct (mute_step _ _ _ _ G M ST) as (M1 & O1). rewrite got_target_app, O1. apply (IH _ _ _ G M1 RN).
  Qed.
  (* false of the code: on a connection whose first request does not begin with C, no byte
     of the client reaches any target through a tunnel, whatever comes later *)
  Theorem C157_later_refuted : forall raw q dial reply extra es s o, given_back [] = [] -> ~ like_connect raw ->
    run cn0 (CnReq raw q dial reply extra :: es) = (s, o) -> got_target o = [].
  Proof.
    intros raw q dial reply extra es s o G ON R. rewrite <- one_only_no in ON. cbn [cnrun] in R. destruct (step cn0 (CnReq raw q dial reply extra)) as [s1 o1] eqn:ST. destruct (run s1 es) as [s2 o2] eqn:RN. injection R as _ <-.
    assert (M : mute s1 /\ got_target o1 = []).
    { unfold cnstep in ST. cbn [cn_phase cn0 cn_only cn_st] in ST. rewrite ON in ST. destruct (h_operate cf (HSt None None) q dial reply) as [[st ev] r]. destruct r as [a|e|].
      - injection ST as <- <-. split; [reflexivity|]. rewrite got_target_app, ev_quiet. reflexivity.
      - destruct err_ends; injection ST as <- <-; (split; [reflexivity|apply ev_quiet]).
      - injection ST as <- <-. split; [exact I|apply ev_quiet]. }
    destruct M as (M1 & O1). rewrite got_target_app, O1. apply (mute_run _ _ _ _ G M1 RN).
  Qed.
  (* although a later CONNECT is answered with 200 when no request was forwarded before *)
  Theorem C157_later_answered_refuted : forall u p raw1 q1 h1 reply1 extra1 raw2 q2 h2 reply2 extra2 b, ~ like_connect raw1 ->
    h_auth cf = Some (u, p) -> q_host q1 = Some h1 -> q_auth q1 = None -> q_connect q2 = true -> q_host q2 = Some h2 -> carries cf q2 ->
    exists s, run cn0 [CnReq raw1 q1 true reply1 extra1; CnReq raw2 q2 true reply2 extra2; CnData b] =
      (s, [CnEv (HDial h1); CnAnswer (HStatus 407); CnEv (HDial h2); CnEv (HTunnel h2); CnAnswer (HStatus 200)]) /\ cn_phase s = CnEnd.
  Proof.
    intros u p raw1 q1 h1 reply1 extra1 raw2 q2 h2 reply2 extra2 b ON HA H1 A1 C2 H2 CA. rewrite <- one_only_no in ON.
    assert (O1 : h_operate cf (HSt None None) q1 true reply1 = (HSt None None, [HDial h1], Ok (HStatus 407))).
    { unfold h_operate. cbn [k_conn]. rewrite H1, HA, A1. reflexivity. }
    assert (O2 : h_operate cf (HSt None None) q2 true reply2 = (HSt None (Some h2), [HDial h2; HTunnel h2], Ok (HStatus 200))).
    { unfold h_operate. cbn [k_conn]. rewrite H2, C2. cbn [negb]. unfold carries in CA. rewrite HA in *. destruct CA as (v & -> & ->). reflexivity. }
    eexists. split.
    - cbn [cnrun]. unfold cnstep at 1. cbn [cn_phase cn0 cn_only cn_st]. rewrite O1, ON. unfold cnstep at 1. cbn [cn_phase cn_only cn_st]. rewrite O2.
      unfold cnstep at 1. cbn [cn_phase cn_only cn_st map app]. reflexivity.
    - reflexivity.
  Qed.
  (* false of the code: a connection that begins with C serves one request.  A client whose
     CONNECT was refused for its credentials cannot send them on the same connection. *)
  Theorem C157_retry_refuted : forall u p raw q h reply extra es, like_connect raw ->
    h_auth cf = Some (u, p) -> q_host q = Some h -> q_auth q = None ->
    exists s, run cn0 (CnReq raw q true reply extra :: es) = (s, [CnEv (HDial h); CnAnswer (HStatus 407)]) /\ cn_phase s = CnEnd.
  Proof.
    intros u p raw q h reply extra es ON HA HO AU. rewrite <- one_only_ok in ON.
    assert (OP : h_operate cf (HSt None None) q true reply = (HSt None None, [HDial h], Ok (HStatus 407))).
    { unfold h_operate. cbn [k_conn]. rewrite HO, HA, AU. reflexivity. }
    exists (Cn CnEnd (HSt None None) (Some true)). split; [|reflexivity]. cbn [cnrun]. unfold cnstep at 1. cbn [cn_phase cn0 cn_only cn_st]. rewrite OP, ON.
    unfold take_over. cbn [k_tunnel]. rewrite end_run by reflexivity. reflexivity.
  Qed.
  (* any such connection, whatever it begins with, gets at most one answer *)
  Theorem C157_single : forall raw q dial reply extra es s o, like_connect raw ->
    run cn0 (CnReq raw q dial reply extra :: es) = (s, o) -> (length (answers o) <= 1)%nat.
  Proof.
    intros raw q dial reply extra es s o ON R. rewrite <- one_only_ok in ON. cbn [cnrun] in R. unfold cnstep in R. cbn [cn_phase cn0 cn_only cn_st] in R. rewrite ON in R.
    assert (AA : forall a b, answers (a ++ b) = answers a ++ answers b) by (intros; apply flat_map_app).
    assert (AE : forall ev, answers (map CnEv ev) = []) by (induction ev; [reflexivity|assumption]).
    assert (AO : forall h o, only_to h o -> answers o = []).
    { intros h l. induction l as [|x l IH]; intros H; [reflexivity|]. cbn. pose proof (H x (or_introl eq_refl)) as X. destruct x; try contradiction; apply IH; intros y Y; apply H; right; exact Y. }
    assert (TK : forall st s1 o1 s2 o2, take_over given_back st (Some true) true extra = (s1, o1) -> run s1 es = (s2, o2) -> answers (o1 ++ o2) = []).
    { intros st s1 o1 s2 o2 T RN. unfold take_over in T. destruct (k_tunnel st) as [h|]; injection T as <- <-.
      - pose proof (tunnel_run es h true true st (Some true) eq_refl) as TR. rewrite RN in TR. destruct TR as (_ & _ & T3). rewrite !AA, (AO h _ T3). destruct (given_back extra); reflexivity.
      - rewrite end_run in RN by reflexivity. injection RN as _ <-. reflexivity. }
    assert (EN : forall s es, cn_phase s = CnEnd -> run s es = (s, [])) by (intros; apply end_run; assumption).
    destruct (h_operate cf (HSt None None) q dial reply) as [[st ev] r]. destruct r as [a|e|].
    - destruct (take_over given_back st (Some true) true extra) as [s1 o1] eqn:T. destruct (run s1 es) as [s2 o2] eqn:RN. injection R as _ <-.
      rewrite <- app_assoc, AA, AE. cbn [app]. change (length (a :: answers (o1 ++ o2)) <= 1)%nat. rewrite (TK _ _ _ _ _ T RN). cbn. lia.
    - destruct err_ends.
      + cbv iota beta in R. rewrite EN in R by reflexivity. injection R as _ <-. rewrite AA, AE. cbn. lia.
      + destruct (take_over given_back st (Some true) true extra) as [s1 o1] eqn:T. destruct (cnrun cf given_back false s1 es) as [s2 o2] eqn:RN. injection R as _ <-.
        rewrite <- app_assoc, AA, AE, (TK _ _ _ _ _ T RN). cbn. lia.
    - cbv iota beta in R. rewrite EN in R by reflexivity. injection R as _ <-. rewrite AA, AE. cbn. lia.
  Qed.
End Thms.

Definition open_cfg : hcfg := HCfg None None.
Definition pw_cfg : hcfg := HCfg (Some (txt "u")) (Some (txt "p")).
Definition ex_connect : hreq := HReq true (Some (txt "a:443")) None.
Example C157_example : carries open_cfg ex_connect /\ like_connect (txt "CONNECT a:443 HTTP/1.1") /\ ~ like_connect (txt "GET / HTTP/1.1") /\
  cnrun open_cfg (fun _ => []) true cn0 [CnReq (txt "CONNECT a:443 HTTP/1.1") ex_connect true None []; CnData [1; 2]; CnFrom [3]; CnClientEof; CnData [9]; CnFrom [4]; CnTargetEof] =
    (Cn CnEnd (HSt None (Some (txt "a:443"))) (Some true),
     [CnEv (HDial (txt "a:443")); CnEv (HTunnel (txt "a:443")); CnAnswer (HStatus 200); CnToTarget (txt "a:443") [1; 2]; CnToClient [3]; CnShutTarget; CnToClient [4]; CnShutClient]).
Proof. split; [|split; [|split]]; [vm_compute; repeat split|apply one_only_ok; reflexivity|apply one_only_no; reflexivity|vm_compute; reflexivity]. Qed.
Example C157_example_auth : h_auth pw_cfg = Some (txt "u", txt "p") /\ carries pw_cfg (HReq true (Some (txt "a:443")) (Some (txt "Basic dTpw"))).
Proof. split; [reflexivity|]. eexists. split; reflexivity. Qed.

Print Assumptions C157_tunnel_partial. Print Assumptions C157_early_refuted. Print Assumptions C157_later_refuted. Print Assumptions C157_later_answered_refuted.
Print Assumptions C157_retry_refuted. Print Assumptions C157_single.
