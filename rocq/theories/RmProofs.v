(* Streams a client opens, at the server: what starts a service, and what precedes it. *)
From Verif Require Import Base Text ProtModel ProtSpec ProtProofs CsModel CsSpec CsProofs CcModel CcSpec CcProofs TunSpec TunServer TunClient TunProofs TunMore TunFlow TunProps JoProofs RmSpec.
Open Scope N_scope.

(* every start of a service comes right after a create frame *)
Definition dull (o : eff) : Prop := match o with OServe _ _ | ODecoded (FCreate _ _) => False | _ => True end.
Inductive shaped : list eff -> Prop :=
| sh_nil : shaped []
| sh_dull tr o : shaped tr -> dull o -> shaped (tr ++ [o])
| sh_serve tr s d h : shaped tr -> shaped (tr ++ [ODecoded (FCreate s d); OBind s h; OServe s h]).

Lemma shaped_dull o : forall tr, shaped tr -> Forall dull o -> shaped (tr ++ o).
Proof.
  induction o as [|x o IH]; intros tr S F; [rewrite app_nil_r; exact S|].
  change (x :: o) with ([x] ++ o). rewrite app_assoc. inversion F; subst. apply IH; [now apply sh_dull|assumption].
Qed.
Lemma say_bye_dull m : forall st, Forall dull (snd (say_bye m st)).
Proof.
  induction m as [|[s h] m IH]; intros st; [constructor|]. cbn [say_bye].
  destruct (gone h st || negb (nlen (s_box st h) <? handler_cap)); [apply IH|].
  specialize (IH (set_box h (s_box st h ++ [FClose s []]) st)). destruct (say_bye m _). constructor; [exact I|exact IH].
Qed.
Lemma closed_dull st : Forall dull (snd (tunnel_closed st)).
Proof.
  unfold tunnel_closed. pose proof (say_bye_dull (s_map st) st) as H. destruct (say_bye (s_map st) st) as [st' es]. cbn [snd] in *.
  apply Forall_app. split; [exact H|]. constructor; [exact I|constructor].
Qed.
Lemma deliver_dull h f st : Forall dull (snd (deliver h f st)).
Proof. unfold deliver. destruct (gone h st); [|destruct (_ <? _)]; cbn; repeat constructor. Qed.
Lemma step_shape c st e : Forall dull (snd (step c st e)) \/
  exists s d h, snd (step c st e) = [ODecoded (FCreate s d); OBind s h; OServe s h].
Proof.
  destruct e as [s0 v|s0 d|s0 r|h0|h0| | |b| |n| |]; cbn [step].
  - left. destruct (visit_domain (s_maps st) v); [destruct (nlen (s_work st) <? work_cap)|]; constructor.
  - left. destruct (is_open s0 st && (nlen (s_out st) <? out_cap)); constructor.
  - left. destruct (nlen (s_out st) <? out_cap); constructor.
  - left. destruct (s_box st h0) as [|f q]; [constructor|]. destruct (gone h0 st); repeat constructor.
  - left. constructor.
  - left. destruct (s_phase st); try constructor. destruct (s_work st) as [|[[s1 d] h1] w]; repeat constructor.
  - left. destruct (s_phase st); try constructor. destruct (s_out st); constructor.
  - left. destruct (s_phase st); try constructor. destruct b; [apply closed_dull|repeat constructor].
  - left. destruct (s_phase st); try constructor. apply closed_dull.
  - left. destruct (s_phase st); try constructor. destruct (s_wbuf st); [constructor|].
    destruct (s_wbuf (set_wbuf _ st)); [destruct (s_shut st)|]; repeat constructor.
  - left. destruct (s_phase st); try constructor. destruct (s_wbuf st); repeat constructor.
  - destruct (s_phase st) as [| |h0 f|r]; try (left; constructor); [|left; apply deliver_dull].
    destruct (decode_frame (s_rbuf st)) as [|f r|f r|]; try solve [left; repeat constructor].
    destruct f as [s0 d|s0 d|s0 d|s0 l|u p]; cbn [handle].
    + destruct (negb (s_verify (set_rbuf r st))); [left; repeat constructor|right]. do 3 eexists. reflexivity.
    + left. destruct (negb (s_verify (set_rbuf r st))); [repeat constructor|].
      destruct (lookup N.eqb s0 (s_map (set_rbuf r st))) as [h0|]; [|repeat constructor].
      pose proof (deliver_dull h0 (FClose s0 d) (set_rbuf r st)) as G.
      destruct (deliver h0 (FClose s0 d) (set_rbuf r st)). constructor; [exact I|exact G].
    + left. destruct (negb (s_verify (set_rbuf r st))); [repeat constructor|].
      destruct (lookup N.eqb s0 (s_map (set_rbuf r st))) as [h0|]; [|repeat constructor].
      pose proof (deliver_dull h0 (FData s0 d) (set_rbuf r st)) as G.
      destruct (deliver h0 (FData s0 d) (set_rbuf r st)). constructor; [exact I|exact G].
    + left. destruct (negb (s_verify (set_rbuf r st))); repeat constructor.
    + left. destruct (negb (s_verify (set_rbuf r st)) && check_succ c u p); [repeat constructor|].
      destruct (negb (s_verify (set_rbuf r st))); repeat constructor.
Qed.
Lemma shaped_reach c es st tr : run c (s_init c) es = (st, tr) -> shaped tr.
Proof.
  apply (run_reach c (fun _ tr => shaped tr)); [constructor|]. intros st0 tr0 e H.
  destruct (step_shape c st0 e) as [F|(s & d & h & E)]; [now apply shaped_dull|rewrite E; now apply sh_serve].
Qed.

Lemma app_snoc_cases {A} (tr : list A) o a x b : tr ++ [o] = a ++ x :: b ->
  (b = [] /\ a = tr /\ x = o) \/ exists b', b = b' ++ [o] /\ tr = a ++ x :: b'.
Proof.
  intros E. destruct b as [|y b0] using rev_ind.
  - apply app_inj_tail in E as (-> & ->). left. auto.
  - clear IHb0. change (a ++ x :: b0 ++ [y]) with (a ++ (x :: b0) ++ [y]) in E. rewrite app_assoc in E. apply app_inj_tail in E as (-> & ->).
    right. exists b0. auto.
Qed.
Lemma shaped_serve tr : shaped tr -> forall a s h b, tr = a ++ OServe s h :: b ->
  exists a' d, a = a' ++ [ODecoded (FCreate s d); OBind s h] /\ shaped a'.
Proof.
  induction 1 as [|tr o S IH D|tr s0 d0 h0 S IH]; intros a s h b E.
  - destruct a; discriminate.
  - apply app_snoc_cases in E as [(_ & _ & <-)|(b' & _ & E)]; [destruct D|exact (IH _ _ _ _ E)].
  - change [ODecoded (FCreate s0 d0); OBind s0 h0; OServe s0 h0] with ([ODecoded (FCreate s0 d0)] ++ [OBind s0 h0] ++ [OServe s0 h0]) in E.
    rewrite !app_assoc in E. apply app_snoc_cases in E as [(_ & -> & X)|(b1 & _ & E)].
    + injection X as -> ->. exists tr, d0. split; [rewrite <- app_assoc; reflexivity|exact S].
    + apply app_snoc_cases in E as [(_ & _ & X)|(b2 & _ & E)]; [discriminate|].
      apply app_snoc_cases in E as [(_ & _ & X)|(b3 & _ & E)]; [discriminate|]. exact (IH _ _ _ _ E).
Qed.
Lemma shaped_create tr : shaped tr -> forall s d, In (FCreate s d) (decoded tr) -> exists h, In (OServe s h) tr.
Proof.
  induction 1 as [|tr o S IH D|tr s0 d0 h0 S IH]; intros s d H.
  - destruct H.
  - rewrite decoded_app in H. apply in_app_iff in H as [H|H].
    + destruct (IH _ _ H) as (h & G). exists h. apply in_app_iff. left. exact G.
    + exfalso. destruct o; try (destruct H; fail). destruct H as [->|[]]. destruct D.
  - rewrite decoded_app in H. apply in_app_iff in H as [H|[H|[]]].
    + destruct (IH _ _ H) as (h & G). exists h. apply in_app_iff. left. exact G.
    + injection H as -> ->. exists h0. apply in_app_iff. right. right. right. left. reflexivity.
Qed.

(* the client: data of a stream leaves after the request for the stream *)
Definition kworks (st : kst) : list N := map (fun w => fst (fst w)) (k_work st).
Lemma work_step st e s : In s (kworks st) -> In s (kworks (fst (kstep st e))) \/ exists d, In (FCreate s d) (kpush1 st e).
Proof.
  assert (Q : kworks (fst (ktunnel_closed st)) = kworks st).
  { unfold ktunnel_closed, kworks.
    assert (G : forall m st, k_work (fst (ksay_bye m st)) = k_work st).
    { clear. induction m as [|[s0 h0] m IH]; intros st; [reflexivity|]. cbn [ksay_bye]. destruct (kgone h0 st || _); [apply IH|].
      specialize (IH (kset_box h0 (k_box st h0 ++ [FClose s0 []]) st)). destruct (ksay_bye m _). cbn [fst] in *. exact IH. }
    specialize (G (k_map st) st). destruct (ksay_bye (k_map st) st). cbn [fst] in *. cbn. now rewrite G. }
  intros H. destruct e as [s0|s0 d|s0 r|h|h|h| | |b| |n| |]; cbn [kstep kpush1].
  - left. destruct (nlen (k_work st) <? work_cap); [|exact H]. unfold kworks. cbn. rewrite map_app. apply in_app_iff. left. exact H.
  - left. destruct (nlen (k_out st) <? out_cap); exact H.
  - left. destruct (nlen (k_out st) <? out_cap); exact H.
  - left. destruct (k_box st h); [exact H|destruct (kgone h st); exact H].
  - left. exact H.
  - left. destruct (lookup N.eqb h (k_conn st)); [|exact H]. destruct (nlen (k_out st) <? out_cap); exact H.
  - destruct (k_phase st); try (left; exact H). destruct (k_work st) as [|[[s1 d1] h1] w] eqn:E; [left; exact H|].
    unfold kworks in H. rewrite E in H. destruct H as [H|H]; [right|left; exact H]. exists d1. left. cbn in H. now subst.
  - left. destruct (k_phase st); try exact H. destruct (k_out st); exact H.
  - left. destruct (k_phase st); try (destruct b; exact H). destruct b; [rewrite Q|]; exact H.
  - left. destruct (k_phase st); try exact H. rewrite Q. exact H.
  - left. destruct (k_phase st); try exact H. destruct (k_wbuf st); [exact H|]. exact H.
  - left. destruct (k_phase st); try exact H. destruct (k_wbuf st); [exact H|]. exact H.
  - left. destruct (k_phase st) as [| |f0|x] eqn:Hp; try exact H.
    2:{ destruct (nlen (k_out st) <? out_cap); exact H. }
    destruct (decode_frame (k_rbuf st)) as [|f rest|e rest|]; try exact H.
    assert (T : forall h g, kworks (fst (ktry_send h g (kset_rbuf rest st))) = kworks st).
    { intros h g. unfold ktry_send. destruct (kgone _ _ || _); reflexivity. }
    destruct f as [s1 dom|s1 r|s1 d|s1 ms|u p]; cbn [khandle].
    + destruct (choose _ _) as [m|]; [destruct (is_proxy m); [|destruct (m_local m)]|destruct (_ <? out_cap)]; exact H.
    + destruct (s1 =? 0); [exact H|]. destruct (lookup _ _ _) as [h|]; [|exact H].
      specialize (T h (FClose s1 r)). destruct (ktry_send _ _ _). cbn [fst] in *. rewrite T. exact H.
    + destruct (lookup _ _ _) as [h|]; [|exact H].
      specialize (T h (FData s1 d)). destruct (ktry_send _ _ _). cbn [fst] in *. rewrite T. exact H.
    + exact H.
    + exact H.
Qed.

Lemma kdata_after_create k0 s : stuck_close k0 -> k_out k0 = [] -> forall kes, asks_first k0 kes -> opens_first k0 s kes ->
  (opened k0 s kes -> In s (kworks (fst (krun k0 kes))) \/ exists d, In (FCreate s d) (kpushed k0 kes)) /\
  (payload s (k_out (fst (krun k0 kes))) <> [] -> opened k0 s kes) /\
  (payload s (kpushed k0 kes) = [] \/ exists x d y, kpushed k0 kes = x ++ FCreate s d :: y /\ payload s x = []).
Proof.
  intros SC O0. induction kes as [|e kes IH] using rev_ind; intros Af Of.
  - split; [intros (e0 & e1 & E & _); destruct e0; discriminate|]. split; [intros H; cbn [krun fst] in H; rewrite O0 in H; destruct H; reflexivity|left; reflexivity].
  - destruct IH as (A & C & B).
    { intros e1 e2 E. apply (Af e1 (e2 ++ [e])). rewrite E, <- app_assoc. reflexivity. }
    { intros e1 d e2 E. apply (Of e1 d (e2 ++ [e])). rewrite E, <- app_assoc. reflexivity. }
    assert (Fe : e = KOut -> k_work (fst (krun k0 kes)) = []) by (intros ->; exact (Af kes [] eq_refl)).
    assert (De : forall d, e = KData s d -> opened k0 s kes) by (intros d ->; exact (Of kes d [] eq_refl)).
    assert (Sc : stuck_close (fst (krun k0 kes))).
    { clear - SC. induction kes as [|x kes IH] using rev_ind; [exact SC|]. rewrite TunClient.krun_app. cbn [fst]. rewrite krun_cons. cbn [krun fst]. apply stuck_close_step. exact IH. }
    rewrite TunClient.krun_app. cbn [fst]. rewrite kpushed_app. rewrite krun_cons. cbn [krun fst kpushed]. rewrite app_nil_r.
    set (st := fst (krun k0 kes)) in *. destruct (kstep_facts st e) as [_ F]. pose proof (kput1_payload s st e Sc) as P.
    assert (M : opened k0 s kes -> opened k0 s (kes ++ [e])).
    { intros (e0 & e1 & E & L). exists e0, (e1 ++ [e]). split; [rewrite E, <- app_assoc; reflexivity|exact L]. }
    split; [|split].
    + intros (e0 & e1 & E & L). destruct e1 as [|y e1 _] using rev_ind.
      * apply app_inj_tail in E as (-> & ->). left. fold st in L. cbn [kstep]. replace (nlen (k_work st) <? work_cap) with true by (symmetry; apply N.ltb_lt; exact L).
        unfold kworks. cbn. rewrite map_app. apply in_app_iff. right. left. reflexivity.
      * change (e0 ++ KOpen s :: e1 ++ [y]) with (e0 ++ (KOpen s :: e1) ++ [y]) in E. rewrite app_assoc in E. apply app_inj_tail in E as (-> & ->).
        destruct A as [A|(d & A)]; [exists e0, e1; split; [reflexivity|exact L]| |].
        -- destruct (work_step st y s A) as [G|(d & G)]; [left; exact G|right; exists d; apply in_app_iff; right; exact G].
        -- right. exists d. apply in_app_iff. left. exact A.
    + intros H. assert (G : payload s (k_out st) <> [] \/ exists d, e = KData s d).
      { destruct e; try (rewrite F, payload_app, P, app_nil_r in H; left; exact H).
        - rewrite F, payload_app, P in H. destruct (N.eqb_spec s0 s) as [->|]; [right; eexists; reflexivity|]. cbn [andb] in H. rewrite app_nil_r in H. left. exact H.
        - left. intros X. rewrite <- F, payload_app in X. apply app_eq_nil in X as [_ X]. exact (H X). }
      apply M. destruct G as [G|(d & G)]; [exact (C G)|exact (De d G)].
    + destruct B as [B|(x & d & y & B & Bx)].
      2: { right. exists x, d, (y ++ kpush1 st e). rewrite B, <- app_assoc. split; [reflexivity|exact Bx]. }
      destruct (payload s (kpush1 st e)) eqn:Z; [left; rewrite payload_app, B, Z; reflexivity|]. right.
      assert (K : e = KOut /\ payload s (k_out st) <> []).
      { destruct e; cbn [kpush1] in Z; try discriminate.
        - destruct (k_phase st); try discriminate. destruct (k_work st) as [|[[s1 d] h1] w]; discriminate.
        - split; [reflexivity|]. destruct (k_phase st); try discriminate. destruct (k_out st) as [|f o]; [discriminate|].
          intros K. change (f :: o) with ([f] ++ o) in K. rewrite payload_app, Z in K. discriminate. }
      destruct K as [-> K]. destruct (A (C K)) as [G|(d & G)].
      * unfold kworks in G. rewrite (Fe eq_refl) in G. destruct G.
      * apply in_split in G as (x & y & E). exists x, d, (y ++ kpush1 st KOut). split.
        -- rewrite E, <- app_assoc. reflexivity.
        -- rewrite E, payload_app in B. apply app_eq_nil in B. exact (proj1 B).
Qed.

Lemma first_of {A} (P : A -> Prop) x : forall g f f' r q, ~ Exists P x -> P f' -> x ++ f :: r = g ++ f' :: q -> prefix x g.
Proof.
  induction x as [|y x IH]; intros g f f' r q Nx Pf E; [exists g; reflexivity|].
  destruct g as [|z g]; cbn [app] in E; injection E as -> E.
  - destruct Nx. left. exact Pf.
  - destruct (IH g f f' r q (fun X => Nx (Exists_cons_tl _ X)) Pf E) as (m & ->). exists m. reflexivity.
Qed.

(* nothing of a stream was decoded before the first service of the stream *)
Lemma early_quiet c ms kes es kst ktr st tr : tunnel c ms kes es kst ktr st tr ->
  forall a s h b, tr = a ++ OServe s h :: b -> (forall h', ~ In (OServe s h') a) ->
  asks_first (k_init c ms) kes -> opens_first (k_init c ms) s kes ->
  exists a', a = a' ++ [OBind s h] /\ payload s (decoded a') = [].
Proof.
  intros T a s h b E Fi Af Of. pose proof (shaped_reach _ _ _ _ (t_server _ _ _ _ _ _ _ _ T)) as Sh.
  destruct (shaped_serve _ Sh _ _ _ _ E) as (a0 & d & Ea & Sa). exists (a0 ++ [ODecoded (FCreate s d)]).
  split; [rewrite Ea, <- app_assoc; reflexivity|]. rewrite decoded_app, payload_app. cbn [decoded flat_map app payload]. rewrite app_nil_r.
  pose proof (tunnel_link _ _ _ _ _ _ _ _ T) as L.
  destruct (server_sees _ _ _ _ _ _ _ _ _ L es [] (eq_sym (app_nil_r es))) as [_ (more & P)].
  rewrite (l_server _ _ _ _ _ _ _ _ _ L) in P. cbn [snd] in P. rewrite E, Ea, !decoded_app in P.
  change (decoded [ODecoded (FCreate s d); OBind s h]) with [FCreate s d] in P. rewrite <- !app_assoc in P.
  assert (Nc : ~ Exists (fun f => exists d, f = FCreate s d) (decoded a0)).
  { intros X. apply Exists_exists in X as (f & I & d' & ->). destruct (shaped_create _ Sa _ _ I) as (h' & G). apply (Fi h'). rewrite Ea. apply in_app_iff. left. exact G. }
  destruct (kdata_after_create (k_init c ms) s (stuck_close_init c ms) eq_refl kes Af Of) as (_ & _ & [B|(x & d' & y & B & Bx)]).
  - assert (Q : prefix (payload s (decoded a0)) (payload s (map public (greeting c ms ++ kpushed (k_init c ms) kes)))) by (rewrite P, payload_app; apply prefix_app).
    rewrite payload_public, payload_app, B, app_nil_r in Q. replace (payload s (greeting c ms)) with (@nil N) in Q.
    + destruct Q as (m & Q). symmetry in Q. apply app_eq_nil in Q. exact (proj1 Q).
    + unfold greeting. destruct c as [[u|] [p|]]; destruct ms; reflexivity.
  - rewrite B, !map_app in P. cbn [map public] in P. symmetry in P. rewrite (app_assoc (map public _)) in P.
    rewrite <- ?app_assoc in P. cbn [app] in P. rewrite (app_assoc (map public (greeting c ms)) (map public x)) in P.
    pose proof (first_of (fun f => exists d, f = FCreate s d) (decoded a0) (map public (greeting c ms) ++ map public x) _ _ _ _ Nc (ex_intro _ d' eq_refl) P) as Q.
    rewrite <- map_app in Q. apply (prefix_payload s) in Q. rewrite payload_public, payload_app, Bx, app_nil_r in Q. replace (payload s (greeting c ms)) with (@nil N) in Q.
    + destruct Q as (m & Q). symmetry in Q. apply app_eq_nil in Q. exact (proj1 Q).
    + unfold greeting. destruct c as [[u|] [p|]]; destruct ms; reflexivity.
Qed.
