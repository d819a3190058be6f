(* What a visitor or a local service receives, compared with what was sent for it
   at the other end of the tunnel. *)
From Coq Require Import String.
From Verif Require Import Base Text ProtModel ProtSpec ProtProofs ProtStream CsModel CsSpec CsProofs
  CsRoute CsOwn CcModel CcSpec CcProofs CcCreate TunSpec TunServer TunClient TunProofs.
Open Scope N_scope.

Definition tos (h : N) (l : list (N * frame)) : list frame :=
  flat_map (fun x => if fst x =? h then [snd x] else []) l.
Lemma tos_app h a b : tos h (a ++ b) = tos h a ++ tos h b.
Proof. apply flat_map_app. Qed.
Lemma payload_app' s a b : payload s (a ++ b) = payload s a ++ payload s b.
Proof. apply flat_map_app. Qed.
Lemma prefix_payload s a b : prefix a b -> prefix (payload s a) (payload s b).
Proof. intros (m & ->). rewrite payload_app'. apply prefix_app. Qed.
Lemma prefix_app_r {A} (a b c : list A) : prefix a b -> prefix a (b ++ c).
Proof. intros H. eapply prefix_trans; [exact H|apply prefix_app]. Qed.

(* ---- server ------------------------------------------------------------------- *)
Definition puts (h : N) (tr : list eff) : list frame :=
  flat_map (fun e => match e with OPut h' f => if h' =? h then [f] else [] | _ => [] end) tr.
Lemma puts_app h a b : puts h (a ++ b) = puts h a ++ puts h b.
Proof. apply flat_map_app. Qed.
Lemma handed_app' a b : handed (a ++ b) = handed a ++ handed b.
Proof. apply flat_map_app. Qed.

Definition calm (e : eff) : Prop :=
  match e with OPut _ _ | ODrop _ _ => False | OBye _ f => is_close f | _ => True end.
Lemma calm_facts h o : Forall calm o -> puts h o = [] /\ tos h (handed o) = [].
Proof.
  induction 1 as [|e o He _ [I1 I2]]; [split; reflexivity|].
  destruct e; cbn in He; try contradiction; split; assumption.
Qed.
Definition byes_ok (e : eff) : Prop := match e with OBye _ f => is_close f | _ => True end.
Lemma calm_byes o : Forall calm o -> Forall byes_ok o.
Proof. apply Forall_impl. intros e; destruct e; cbn; tauto. Qed.

Lemma say_bye_calm m : forall st, Forall calm (snd (say_bye m st)).
Proof.
  induction m as [|[s h] m IH]; intros st; [constructor|]. cbn [say_bye].
  destruct (gone h st || _); [apply IH|].
  specialize (IH (set_box h (s_box st h ++ [FClose s []]) st)). destruct (say_bye m _).
  constructor; [exact I|exact IH].
Qed.
Lemma closed_calm st : Forall calm (snd (tunnel_closed st)).
Proof.
  unfold tunnel_closed. pose proof (say_bye_calm (s_map st) st) as B.
  destruct (say_bye (s_map st) st). cbn [snd] in *. apply Forall_app. split; [exact B|repeat constructor].
Qed.

Lemma deliver_flow h k f st :
  (gone h st = false -> puts h (snd (deliver k f st)) = tos h (handed (snd (deliver k f st)))) /\
  (gone h st = true -> puts h (snd (deliver k f st)) = []) /\ Forall byes_ok (snd (deliver k f st)).
Proof.
  unfold deliver. destruct (gone k st) eqn:G; [|destruct (_ <? handler_cap)]; cbn;
    (split; [|split; [|repeat constructor]]); try reflexivity; intros Hg;
    destruct (N.eqb_spec k h) as [->|]; try reflexivity; congruence.
Qed.

Lemma step_flow c st e h :
  (gone h st = false -> puts h (snd (step c st e)) = tos h (handed (snd (step c st e)))) /\
  (gone h st = true -> puts h (snd (step c st e)) = []) /\ Forall byes_ok (snd (step c st e)).
Proof.
  assert (Hc : forall o, Forall calm o -> (gone h st = false -> puts h o = tos h (handed o)) /\
     (gone h st = true -> puts h o = []) /\ Forall byes_ok o).
  { intros o Ho. destruct (calm_facts h o Ho) as [A B].
    split; [intros _; congruence|]. split; [intros _; exact A|apply calm_byes; exact Ho]. }
  destruct e as [s v|s d|s rr|k|k| | |b| |n| |]; cbn [step].
  - destruct (visit_domain _ v); [destruct (_ <? _)|]; apply Hc; constructor.
  - destruct (is_open s st && _); apply Hc; constructor.
  - destruct (_ <? _); apply Hc; constructor.
  - destruct (s_box st k); [|destruct (gone k st)]; apply Hc; repeat constructor.
  - apply Hc; constructor.
  - destruct (s_phase st), (s_work st) as [|[[? ?] ?] ?]; apply Hc; repeat constructor.
  - destruct (s_phase st), (s_out st); apply Hc; repeat constructor.
  - destruct (s_phase st), b; try (apply Hc; repeat constructor; fail). apply Hc, closed_calm.
  - destruct (s_phase st); try (apply Hc; repeat constructor; fail). apply Hc, closed_calm.
  - destruct (s_phase st); try (apply Hc; repeat constructor; fail). destruct (s_wbuf st); [apply Hc; constructor|].
    cbv zeta. match goal with |- context [s_wbuf ?x] => destruct (s_wbuf x), (s_shut st) end; apply Hc; repeat constructor.
  - destruct (s_phase st), (s_wbuf st); apply Hc; repeat constructor.
  - destruct (s_phase st) as [| |hb fb|rb]; try (apply Hc; repeat constructor; fail); [|apply deliver_flow].
    destruct (decode_frame (s_rbuf st)) as [|g rest|e rest|]; try (apply Hc; repeat constructor; fail).
    assert (D : forall k f0 f, (gone h st = false -> puts h (ODecoded f0 :: snd (deliver k f (set_rbuf rest st))) =
        tos h (handed (ODecoded f0 :: snd (deliver k f (set_rbuf rest st))))) /\
      (gone h st = true -> puts h (ODecoded f0 :: snd (deliver k f (set_rbuf rest st))) = []) /\
      Forall byes_ok (ODecoded f0 :: snd (deliver k f (set_rbuf rest st)))).
    { intros k f0 f. destruct (deliver_flow h k f (set_rbuf rest st)) as (A & B & C).
      split; [exact A|]. split; [exact B|]. constructor; [exact I|exact C]. }
    unfold handle. cbn [s_verify set_rbuf s_map s_next s_wbuf].
    destruct g as [s d|s rr|s d|s ms|u p].
    + destruct (s_verify st); apply Hc; repeat constructor.
    + destruct (s_verify st); cbn [negb]; [|apply Hc; repeat constructor].
      destruct (lookup _ _ _) as [k|]; [|apply Hc; repeat constructor].
      specialize (D k (FClose s rr) (FClose s rr)). destruct (deliver _ _ _). exact D.
    + destruct (s_verify st); cbn [negb]; [|apply Hc; repeat constructor].
      destruct (lookup _ _ _) as [k|]; [|apply Hc; repeat constructor].
      specialize (D k (FData s d) (FData s d)). destruct (deliver _ _ _). exact D.
    + destruct (s_verify st); apply Hc; repeat constructor.
    + destruct (s_verify st); cbn [negb andb]; [apply Hc; repeat constructor|].
      destruct (check_succ c u p); apply Hc; repeat constructor.
Qed.

Definition flow_inv (h : N) (st : sst) (tr : list eff) : Prop :=
  Forall byes_ok tr /\ prefix (puts h tr) (tos h (handed tr)) /\
  (gone h st = false -> puts h tr = tos h (handed tr)).

Lemma flow_reach c h es st tr : run c (s_init c) es = (st, tr) -> flow_inv h st tr.
Proof.
  apply (run_reach c (flow_inv h)).
  - split; [constructor|]. split; [exists []; reflexivity|reflexivity].
  - clear. intros st tr e (B & P & E). destruct (step_flow c st e h) as (F1 & F2 & F3).
    split; [apply Forall_app; split; assumption|].
    rewrite puts_app, handed_app', tos_app.
    assert (Hm : gone h (fst (step c st e)) = false -> gone h st = false).
    { unfold gone. rewrite step_gone. destruct e; try (intros H; exact H).
      cbn [existsb]. intros H. apply orb_false_iff in H as [_ H]. exact H. }
    destruct (gone h st) eqn:G.
    + rewrite (F2 eq_refl), app_nil_r. split; [apply prefix_app_r; exact P|].
      intros H. specialize (Hm H). discriminate.
    + rewrite (E eq_refl), (F1 eq_refl). split; [apply prefix_refl|reflexivity].
Qed.

Lemma given_puts s h tr : Forall byes_ok tr -> payload s (given h tr) = payload s (puts h tr).
Proof.
  induction 1 as [|e tr He _ IH]; [reflexivity|].
  destruct e; cbn [given puts flat_map] in *; fold (given h tr) (puts h tr); try exact IH.
  - rewrite !payload_app', IH. reflexivity.
  - rewrite payload_app', IH. destruct (_ =? h); [|reflexivity].
    destruct f; cbn in He; try contradiction. reflexivity.
Qed.

Lemma tos_none h l : (forall f, ~ In (h, f) l) -> tos h l = [].
Proof.
  induction l as [|[k f] l IH]; intros H; [reflexivity|]. cbn [tos flat_map fst snd].
  destruct (N.eqb_spec k h) as [->|]; [exfalso; apply (H f); left; reflexivity|].
  apply IH. intros g Hg. apply (H g). right; exact Hg.
Qed.

Lemma route_payload s h : forall tr b, b s = Some h -> ~ In h (map snd (binds tr)) ->
  prefix (payload s (tos h (route b tr))) (payload s (decoded tr)).
Proof.
  induction tr as [|e tr IH]; intros b Hb Hn; [exists []; reflexivity|].
  destruct e as [f| |s0 h0| | | | | | | | |]; cbn [route decoded flat_map app binds] in *; try (apply IH; assumption).
  - fold (decoded tr).
    assert (Hskip : prefix (payload s (tos h (route b tr))) (payload s (decoded tr))) by (apply IH; assumption).
    destruct f as [x d|x r|x d|x ms|u p]; cbn [payload flat_map app]; fold (payload s (decoded tr)); try exact Hskip.
    + destruct (b x) as [k|]; [|exact Hskip]. cbn [tos flat_map fst snd]. fold (tos h (route b tr)).
      destruct (k =? h); exact Hskip.
    + destruct (N.eqb_spec x s) as [->|Hx].
      * rewrite Hb. cbn [tos flat_map fst snd]. rewrite N.eqb_refl. fold (tos h (route b tr)).
        cbn [app payload flat_map]. rewrite N.eqb_refl. destruct Hskip as (m & Hm). exists m.
        fold (payload s (decoded tr)) in *. rewrite Hm, app_assoc. reflexivity.
      * cbn [app]. destruct (b x) as [k|]; [|exact Hskip]. cbn [tos flat_map fst snd]. fold (tos h (route b tr)).
        destruct (k =? h); [|exact Hskip]. cbn [app payload flat_map].
        destruct (N.eqb_spec x s); [contradiction|exact Hskip].
  - cbn [map snd] in Hn. fold (binds tr) in Hn.
    assert (h0 <> h /\ ~ In h (map snd (binds tr))) as [H0 Hn'].
    { split; [intros ->; apply Hn; left; reflexivity|intros Hi; apply Hn; right; exact Hi]. }
    fold (decoded tr). destruct (N.eqb_spec s s0) as [<-|Hs].
    + (* s bound to somebody else: h gets nothing of s any more *)
      clear IH Hb. assert (Hb : rebind b s h0 s <> Some h) by (unfold rebind; rewrite N.eqb_refl; congruence).
      assert (E : payload s (tos h (route (rebind b s h0) tr)) = []); [|rewrite E; eexists; reflexivity].
      revert Hb Hn'. generalize (rebind b s h0). clear. induction tr as [|e tr IH]; intros b Hb Hn; [reflexivity|].
      destruct e as [f| |s0 h0| | | | | | | | |]; cbn [route binds flat_map app] in *; try (apply IH; assumption).
      * destruct f as [x d|x r|x d|x ms|u p]; try (apply IH; assumption).
        -- destruct (b x) as [k|]; [|apply IH; assumption]. cbn [tos flat_map fst snd].
           fold (tos h (route b tr)). destruct (k =? h); [cbn [app payload flat_map]|]; apply IH; assumption.
        -- destruct (b x) as [k|] eqn:E; [|apply IH; assumption]. cbn [tos flat_map fst snd].
           fold (tos h (route b tr)). destruct (N.eqb_spec k h) as [->|]; [|apply IH; assumption].
           cbn [app payload flat_map]. destruct (N.eqb_spec x s) as [->|]; [congruence|apply IH; assumption].
      * cbn [map snd] in Hn. fold (binds tr) in Hn. apply IH.
        -- unfold rebind. destruct (s =? s0); [|exact Hb]. intros E. apply Hn. left. congruence.
        -- intros Hi. apply Hn. right. exact Hi.
    + apply IH; [|exact Hn']. unfold rebind. destruct (N.eqb_spec s s0); [contradiction|exact Hb].
Qed.

Lemma decoded_app' a b : decoded (a ++ b) = decoded a ++ decoded b.
Proof. apply flat_map_app. Qed.

Lemma visitor_flow c es st tr a b s h :
  run c (s_init c) es = (st, tr) -> tr = a ++ OBind s h :: b ->
  prefix (payload s (got h tr)) (payload s (decoded b)).
Proof.
  intros Hrun E. pose proof (own_reach _ _ _ _ Hrun) as (Hn & _).
  apply NoDup_app_remove_r in Hn. rewrite E in Hn. rewrite binds_app, map_app in Hn.
  change (OBind s h :: b) with ([OBind s h] ++ b) in Hn. rewrite binds_app in Hn. cbn [binds flat_map app map snd] in Hn.
  fold (binds b) in Hn. pose proof (NoDup_remove_2 _ _ _ Hn) as Hno.
  destruct (flow_reach c h es st tr Hrun) as (B & P & _).
  eapply prefix_trans. { apply prefix_payload. pose proof (fifo c es st tr Hrun h) as F.
    instantiate (1 := given h tr). rewrite <- F. apply prefix_app. }
  rewrite (given_puts s h tr B).
  eapply prefix_trans. { apply prefix_payload. exact P. }
  eapply prefix_trans. { apply prefix_payload. pose proof (dispatch c es st tr Hrun) as D.
    change (fun _ : N => None) with none in D.
    instantiate (1 := tos h (route none tr)). rewrite <- D, tos_app. apply prefix_app. }
  rewrite E, route_app, tos_app.
  assert (tos h (route none a) = []) as ->.
  { apply tos_none. intros f Hf. apply route_bound in Hf as [Hf|Hf]; [discriminate|].
    apply Hno, in_app_iff. left. apply in_map_iff. exists (frame_sock f, h). split; [reflexivity|exact Hf]. }
  cbn [app route]. apply route_payload.
  - unfold rebind. rewrite N.eqb_refl. reflexivity.
  - intros Hi. apply Hno, in_app_iff. right. exact Hi.
Qed.

(* ---- client -------------------------------------------------------------------- *)
Definition kcalm (e : keff) : Prop := match e with QBye _ f => is_close f | _ => True end.
Lemma ksay_bye_calm m : forall st, Forall kcalm (snd (ksay_bye m st)).
Proof.
  induction m as [|[s h] m IH]; intros st; [constructor|]. cbn [ksay_bye].
  destruct (kgone h st || _); [apply IH|].
  specialize (IH (kset_box h (k_box st h ++ [FClose s []]) st)). destruct (ksay_bye m _).
  constructor; [exact I|exact IH].
Qed.
Lemma kstep_calm st e : Forall kcalm (snd (kstep st e)).
Proof.
  assert (Zc : Forall kcalm (snd (ktunnel_closed st))).
  { unfold ktunnel_closed. pose proof (ksay_bye_calm (k_map st) st) as B. destruct (ksay_bye (k_map st) st).
    cbn [snd] in *. apply Forall_app. split; [exact B|repeat constructor]. }
  destruct e as [s|s d|s r|h|h|h| | |b| |n| |]; cbn [kstep].
  - destruct (_ <? _); constructor.
  - destruct (_ <? _); constructor.
  - destruct (_ <? _); constructor.
  - destruct (k_box st h); [|destruct (kgone h st)]; repeat constructor.
  - constructor.
  - destruct (lookup _ _ _); [destruct (_ <? _)|]; constructor.
  - destruct (k_phase st), (k_work st) as [|[[? ?] ?] ?]; repeat constructor.
  - destruct (k_phase st), (k_out st); repeat constructor.
  - destruct (k_phase st), b; try (repeat constructor; fail). exact Zc.
  - destruct (k_phase st); try (repeat constructor; fail). exact Zc.
  - destruct (k_phase st), (k_wbuf st); repeat constructor.
  - destruct (k_phase st), (k_wbuf st); repeat constructor.
  - destruct (k_phase st); try (repeat constructor; fail); [|destruct (_ <? _); repeat constructor].
    destruct (decode_frame (k_rbuf st)) as [|f rest|e rest|]; try (repeat constructor; fail).
    destruct f as [s dom|s r|s d|s ms|u p]; cbn [khandle]; try (repeat constructor; fail).
    + match goal with |- context [choose ?a ?b] => destruct (choose a b) as [m|] end.
      * destruct (is_proxy m); [|destruct (m_local m)]; repeat constructor.
      * destruct (_ <? _); repeat constructor.
    + destruct (s =? 0); [repeat constructor|]. destruct (lookup _ _ _); [|repeat constructor].
      unfold ktry_send. destruct (kgone _ _ || _); repeat constructor.
    + destruct (lookup _ _ _); [|repeat constructor].
      unfold ktry_send. destruct (kgone _ _ || _); repeat constructor.
Qed.
Lemma krun_calm c ms es st tr : krun (k_init c ms) es = (st, tr) -> Forall kcalm tr.
Proof.
  apply (krun_reach (fun _ tr => Forall kcalm tr)); [constructor|].
  intros st0 tr0 e H. apply Forall_app. split; [exact H|apply kstep_calm].
Qed.

Lemma kgiven_tried s h tr : Forall kcalm tr -> (forall f, ~ In (QLost h f) tr) ->
  payload s (kgiven h tr) = payload s (tos h (ktried tr)).
Proof.
  induction 1 as [|e tr He _ IH]; intros Hl; [reflexivity|].
  assert (Hl' : forall f, ~ In (QLost h f) tr) by (intros f Hf; apply (Hl f); right; exact Hf).
  specialize (IH Hl').
  destruct e; cbn [kgiven ktried flat_map tos app fst snd] in *; fold (kgiven h tr) (ktried tr) (tos h (ktried tr));
    try exact IH.
  - rewrite !payload_app', IH. reflexivity.
  - destruct (N.eqb_spec h0 h) as [->|]; [|exact IH]. exfalso. apply (Hl f). left; reflexivity.
  - rewrite payload_app', IH. destruct (_ =? h); [|reflexivity].
    destruct f; cbn in He; try contradiction. reflexivity.
Qed.

Lemma kroute_payload s h : forall tr b, b s = Some h -> ~ In h (map snd (kbinds tr)) ->
  prefix (payload s (tos h (kroute b tr))) (payload s (kdecoded tr)).
Proof.
  induction tr as [|e tr IH]; intros b Hb Hn; [exists []; reflexivity|].
  destruct e as [f|s0 h0| | | | | | | | | | |]; cbn [kroute kdecoded flat_map app kbinds] in *; try (apply IH; assumption).
  - fold (kdecoded tr).
    assert (Hskip : prefix (payload s (tos h (kroute b tr))) (payload s (kdecoded tr))) by (apply IH; assumption).
    destruct f as [x d|x r|x d|x ms|u p]; cbn [payload flat_map app]; fold (payload s (kdecoded tr)); try exact Hskip.
    + destruct (x =? 0); [exact Hskip|]. destruct (b x) as [k|]; [|exact Hskip]. cbn [tos flat_map fst snd]. fold (tos h (kroute b tr)).
      destruct (k =? h); exact Hskip.
    + destruct (N.eqb_spec x s) as [->|Hx].
      * rewrite Hb. cbn [tos flat_map fst snd]. rewrite N.eqb_refl. fold (tos h (kroute b tr)).
        cbn [app payload flat_map]. rewrite N.eqb_refl. destruct Hskip as (m & Hm). exists m.
        fold (payload s (kdecoded tr)) in *. rewrite Hm, app_assoc. reflexivity.
      * cbn [app]. destruct (b x) as [k|]; [|exact Hskip]. cbn [tos flat_map fst snd]. fold (tos h (kroute b tr)).
        destruct (k =? h); [|exact Hskip]. cbn [app payload flat_map].
        destruct (N.eqb_spec x s); [contradiction|exact Hskip].
  - cbn [map snd] in Hn. fold (kbinds tr) in Hn.
    assert (h0 <> h /\ ~ In h (map snd (kbinds tr))) as [H0 Hn'].
    { split; [intros ->; apply Hn; left; reflexivity|intros Hi; apply Hn; right; exact Hi]. }
    fold (kdecoded tr). destruct (N.eqb_spec s s0) as [<-|Hs].
    + clear IH Hb. assert (Hb : rebind b s h0 s <> Some h) by (unfold rebind; rewrite N.eqb_refl; congruence).
      assert (E : payload s (tos h (kroute (rebind b s h0) tr)) = []); [|rewrite E; eexists; reflexivity].
      revert Hb Hn'. generalize (rebind b s h0). clear. induction tr as [|e tr IH]; intros b Hb Hn; [reflexivity|].
      destruct e as [f|s0 h0| | | | | | | | | | |]; cbn [kroute kbinds flat_map app] in *; try (apply IH; assumption).
      * destruct f as [x d|x r|x d|x ms|u p]; try (apply IH; assumption).
        -- destruct (x =? 0); [apply IH; assumption|].
           destruct (b x) as [k|]; [|apply IH; assumption]. cbn [tos flat_map fst snd].
           fold (tos h (kroute b tr)). destruct (k =? h); [cbn [app payload flat_map]|]; apply IH; assumption.
        -- destruct (b x) as [k|] eqn:E; [|apply IH; assumption]. cbn [tos flat_map fst snd].
           fold (tos h (kroute b tr)). destruct (N.eqb_spec k h) as [->|]; [|apply IH; assumption].
           cbn [app payload flat_map]. destruct (N.eqb_spec x s) as [->|]; [congruence|apply IH; assumption].
      * cbn [map snd] in Hn. fold (kbinds tr) in Hn. apply IH.
        -- unfold rebind. destruct (s =? s0); [|exact Hb]. intros E. apply Hn. left. congruence.
        -- intros Hi. apply Hn. right. exact Hi.
    + apply IH; [|exact Hn']. unfold rebind. destruct (N.eqb_spec s s0); [contradiction|exact Hb].
Qed.

Lemma service_flow c ms es st tr a b s h :
  krun (k_init c ms) es = (st, tr) -> tr = a ++ QBind s h :: b -> (forall f, ~ In (QLost h f) tr) ->
  prefix (payload s (kgot h tr)) (payload s (kdecoded b)).
Proof.
  intros Hrun E Hl. pose proof (kinv_reach _ _ _ _ _ Hrun) as (T & _ & F & Hn & _).
  apply NoDup_app_remove_r in Hn. rewrite E in Hn. rewrite kbinds_app, map_app in Hn.
  change (QBind s h :: b) with ([QBind s h] ++ b) in Hn. rewrite kbinds_app in Hn. cbn [kbinds flat_map app map snd] in Hn.
  fold (kbinds b) in Hn. pose proof (NoDup_remove_2 _ _ _ Hn) as Hno.
  eapply prefix_trans. { apply prefix_payload. instantiate (1 := kgiven h tr). rewrite <- (F h). apply prefix_app. }
  rewrite (kgiven_tried s h tr (krun_calm _ _ _ _ _ Hrun) Hl), T.
  rewrite E, kroute_app, tos_app.
  assert (tos h (kroute none a) = []) as ->.
  { apply tos_none. intros f Hf. apply kroute_bound in Hf as [Hf|Hf]; [discriminate|].
    apply Hno, in_app_iff. left. apply in_map_iff. exists (frame_sock f, h). split; [reflexivity|exact Hf]. }
  cbn [app kroute]. apply kroute_payload.
  - unfold rebind. rewrite N.eqb_refl. reflexivity.
  - intros Hi. apply Hno, in_app_iff. right. exact Hi.
Qed.
