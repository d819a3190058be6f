(* The answers to a client whose stream was opened by its side of the tunnel. *)
From Verif Require Import Base Text ProtModel ProtSpec ProtProofs CsModel CsSpec CsProofs CcModel CcSpec CcProofs TunSpec TunServer TunClient TunProofs TunMore TunFlow TunProps JoSpec JoProofs.
Open Scope N_scope.

Lemma kbind_quiet st e s h : In (QBind s h) (snd (kstep st e)) -> payload s (kdecoded (snd (kstep st e))) = [].
Proof.
  intros H. destruct e as [s0|s0 d|s0 r|h0|h0|h0| | |b| |n| |]; cbn [kstep] in *.
  - destruct (nlen (k_work st) <? work_cap); destruct H.
  - destruct (nlen (k_out st) <? out_cap); destruct H.
  - destruct (nlen (k_out st) <? out_cap); destruct H.
  - destruct (k_box st h0); [destruct H|destruct (kgone h0 st)]; [destruct H|destruct H as [H|[]]; discriminate].
  - destruct H.
  - destruct (lookup N.eqb h0 (k_conn st)); [|destruct H]. destruct (nlen (k_out st) <? out_cap); destruct H.
  - destruct (k_phase st); try destruct H. destruct (k_work st) as [|[[? ?] ?] ?]; [destruct H|reflexivity].
  - destruct (k_phase st); try destruct H. destruct (k_out st); destruct H.
  - destruct (k_phase st); try (destruct b; destruct H; fail). destruct b; [|reflexivity]. destruct (proj2 (proj2 (kclosed_binds st)) _ _ H).
  - destruct (k_phase st); try destruct H. destruct (proj2 (proj2 (kclosed_binds st)) _ _ H).
  - destruct (k_phase st); try destruct H. destruct (k_wbuf st); [destruct H|]. reflexivity.
  - destruct (k_phase st); try destruct H. destruct (k_wbuf st); [destruct H|]. reflexivity.
  - destruct (k_phase st) as [| |f0|x]; try destruct H.
    2:{ destruct (nlen (k_out st) <? out_cap); reflexivity. }
    destruct (decode_frame (k_rbuf st)) as [|f rest|e rest|]; try reflexivity.
    destruct f as [s1 dom|s1 r|s1 d|s1 ms|u p]; cbn [khandle] in *.
    + destruct (choose _ _) as [m|]; [destruct (is_proxy m); [|destruct (m_local m)]|destruct (_ <? out_cap)]; reflexivity.
    + destruct (s1 =? 0); [reflexivity|]. destruct (lookup _ _ _) as [h1|]; [|reflexivity].
      destruct (ktry_binds h1 (FClose s1 r) (kset_rbuf rest st)) as (_ & _ & T). destruct (ktry_send _ _ _). cbn [fst snd] in *.
      destruct H as [H|H]; [discriminate|destruct (T _ _ H)].
    + destruct (lookup _ _ _) as [h1|]; [|destruct H as [H|[]]; discriminate].
      destruct (ktry_binds h1 (FData s1 d) (kset_rbuf rest st)) as (_ & _ & T). destruct (ktry_send _ _ _). cbn [fst snd] in *.
      destruct H as [H|H]; [discriminate|destruct (T _ _ H)].
    + reflexivity.
    + reflexivity.
Qed.

Lemma kfound_at c ms : forall w a x b, kseen c ms w = a ++ x :: b ->
  exists w1 e w2 o1 o2, w = w1 ++ AtClient e :: w2 /\
    snd (kstep (fst (krun (k_init c ms) (kevs w1))) e) = o1 ++ x :: o2 /\ a = kseen c ms w1 ++ o1.
Proof.
  induction w as [|j w IH] using rev_ind; intros a x b E.
  - destruct a; discriminate.
  - assert (R : forall b', kseen c ms w = a ++ x :: b' -> exists w1 e w2 o1 o2,
      w ++ [j] = w1 ++ AtClient e :: w2 /\
      snd (kstep (fst (krun (k_init c ms) (kevs w1))) e) = o1 ++ x :: o2 /\ a = kseen c ms w1 ++ o1).
    { intros b' E'. destruct (IH _ _ _ E') as (w1 & e & w2 & o1 & o2 & -> & H1 & H2).
      exists w1, e, (w2 ++ [j]), o1, o2. rewrite <- app_assoc. repeat split; assumption. }
    destruct j as [e|e].
    + unfold kseen in E. rewrite kevs_app in E. cbn [kevs flat_map app] in E. rewrite app_nil_r in E. exact (R b E).
    + unfold kseen in E. rewrite kevs_app, TunClient.krun_app in E. cbn [kevs flat_map app snd] in E. rewrite krun_cons in E.
      cbn [krun snd] in E. rewrite app_nil_r in E. fold (kseen c ms w) in E.
      apply app_eq_app in E as (l & [[E1 E2]|[E1 E2]]).
      * destruct l as [|y l].
        -- rewrite app_nil_r in E1. cbn in E2. exists w, e, [], [], b. repeat split.
           ++ symmetry. exact E2.
           ++ rewrite app_nil_r. symmetry. exact E1.
        -- cbn in E2. injection E2 as -> E2. exact (R l E1).
      * exists w, e, [], l, b. repeat split; assumption.
Qed.

(* a create frame leaves the client together with the binding of its stream *)
Lemma push_binds c ms s d : forall es, In (FCreate s d) (kpushed (k_init c ms) es) -> exists h, In (QBind s h) (snd (krun (k_init c ms) es)).
Proof.
  induction es as [|e es IH] using rev_ind; [intros []|]. rewrite kpushed_app, TunClient.krun_app. cbn [snd]. rewrite krun_cons. cbn [krun snd kpushed]. rewrite !app_nil_r.
  intros H. apply in_app_iff in H as [H|H].
  - destruct (IH H) as (h & G). exists h. apply in_app_iff. left. exact G.
  - destruct (bind_origin c ms es) as (_ & _ & C & _). set (st := fst (krun (k_init c ms) es)) in *.
    destruct e; cbn [kpush1] in H; try destruct H.
    + cbn [kstep]. destruct (k_phase st); try destruct H. destruct (k_work st) as [|[[s0 d0] h0] w]; [destruct H|].
      destruct H as [H|[]]. injection H as -> ->. exists h0. apply in_app_iff. right. left. reflexivity.
    + destruct (k_phase st); try destruct H. destruct (k_out st) as [|f o]; [destruct H|].
      destruct H as [->|[]]. inversion_clear C. contradiction.
Qed.

(* a stream that is neither visited nor created carries nothing at the server *)
Lemma shut_stream c s : forall es, (forall v, ~ In (EvVisit s v) es) -> (forall d, ~ In (FCreate s d) (decoded (snd (run c (s_init c) es)))) ->
  is_open s (fst (run c (s_init c) es)) = false /\ visitor_bytes c s (s_init c) es = [].
Proof.
  assert (VA : forall e1 e2 st, visitor_bytes c s st (e1 ++ e2) = visitor_bytes c s st e1 ++ visitor_bytes c s (fst (run c st e1)) e2).
  { induction e1 as [|e e1 IH]; intros e2 st; [reflexivity|]. cbn [app visitor_bytes]. rewrite IH, run_cons. cbn [fst]. rewrite app_assoc. reflexivity. }
  induction es as [|e es IH] using rev_ind; intros Hv Hd; [split; reflexivity|].
  rewrite run_app in Hd. cbn [snd] in Hd. rewrite run_cons in Hd. cbn [run snd] in Hd. rewrite app_nil_r, decoded_app in Hd.
  destruct IH as (A & B).
  { intros v H. apply (Hv v). apply in_app_iff. left. exact H. }
  { intros d H. apply (Hd d). apply in_app_iff. left. exact H. }
  rewrite VA, B, run_app. cbn [fst]. rewrite run_cons. cbn [run fst app visitor_bytes]. set (st := fst (run c (s_init c) es)) in *. split.
  - destruct (is_open s (fst (step c st e))) eqn:O; [exfalso|reflexivity]. apply is_open_in in O.
    destruct (open_step c st e) as (l & L1 & L2). rewrite L1 in O. apply in_app_iff in O as [O|O]; [|apply is_open_in in O; congruence].
    destruct (L2 s O) as [G|(d & G)].
    + destruct e; cbn [ask1] in G; try destruct G. destruct (visit_domain (s_maps st) v); [|destruct G]. destruct (_ <? _); [|destruct G].
      destruct G as [G|[]]. cbn in G. subst s0. apply (Hv v). apply in_app_iff. right. left. reflexivity.
    + apply (Hd d). apply in_app_iff. right. exact G.
  - rewrite app_nil_r. destruct e; try reflexivity. destruct (N.eqb_spec s0 s) as [->|]; [|reflexivity]. rewrite A. reflexivity.
Qed.

(* nothing of a stream arrived before the client's side opened it *)
Lemma early_silent_opener c ms w s a h b : whole c ms w -> kseen c ms w = a ++ QBind s h :: b ->
  (forall h', ~ In (QBind s h') a) -> (forall v, ~ In (EvVisit s v) (evs w)) -> payload s (kdecoded a) = [].
Proof.
  intros W E Ha Hv. destruct (kfound_at c ms w a _ b E) as (w1 & e & w2 & o1 & o2 & -> & Hs & ->).
  rewrite kdecoded_app, payload_app.
  assert (Z1 : payload s (kdecoded o1) = []).
  { pose proof (kbind_quiet (fst (krun (k_init c ms) (kevs w1))) e s h) as Q. rewrite Hs in Q.
    rewrite kdecoded_app, payload_app in Q.
    apply app_eq_nil in Q; [exact (proj1 Q)|]. apply in_app_iff. right. left. reflexivity. }
  rewrite Z1, app_nil_r. pose proof (whole_prefix _ _ _ _ W) as W1. pose proof (whole_tunnel _ _ _ W1) as T1.
  pose proof (honest_down _ _ _ _ _ _ _ _ _ (tunnel_link _ _ _ _ _ _ _ _ T1) s) as [more P].
  assert (X : visitor_bytes c s (s_init c) (evs w1) = []).
  2:{ rewrite X in P. symmetry in P. apply app_eq_nil in P. exact (proj1 P). }
  apply (shut_stream c s (evs w1)).
  + intros v H. apply (Hv v). rewrite evs_app. apply in_app_iff. left. exact H.
  + intros d H.
    destruct (server_sees _ _ _ _ _ _ _ _ _ (tunnel_link _ _ _ _ _ _ _ _ T1) (evs w1) [] (eq_sym (app_nil_r _))) as [_ Q].
    apply (prefix_in _ _ _ Q) in H. apply in_map_iff in H as (f & Ef & H). destruct f; try discriminate. cbn in Ef. injection Ef as -> ->.
    apply in_app_iff in H as [H|H].
    * destruct (w_creds _ _ _ W) as [(u & p & -> & _)| ->]; unfold greeting in H; destruct ms; cbn in H;
        repeat match goal with H : _ \/ _ |- _ => destruct H as [H|H]; [discriminate|] | H : False |- _ => destruct H end.
    * destruct (push_binds c ms s d (kevs w1) H) as (h' & G). apply (Ha h'). apply in_app_iff. left. exact G.
Qed.
