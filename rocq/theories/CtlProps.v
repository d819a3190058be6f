(* Theorems about the control server (C42, C81 to C84).  See CtlSpec for the vocabulary. *)
From Verif Require Import Base CtlModel CtlSpec CtlProofs.
From Coq Require Import ZArith.
Open Scope N_scope.

(* C42, first half: whenever a generation stops accepting, one of four things has happened before: the next generation has
   begun to accept, the next generation could not be started, /stop was asked for while this generation was the newest, or
   its own accept loop has failed. *)
Theorem C42_old_stops_after_new : forall mode c evs e i,
  In (ODown i) (snd (cstep mode e (after mode c evs))) ->
  In (OUp (S i)) (outs mode c evs) \/ start_failed evs (S i) \/ stop_asked mode c evs i \/ e = EFail i.
Proof. exact why_down. Qed.

(* C42: in a history in which no start fails, no loop fails and nobody asks to stop, with any number of reloads in any
   interleaving, once connections are accepted they are accepted at every later moment. *)
Theorem C42_no_gap : forall mode c evs1 evs2,
  calm (evs1 ++ evs2) -> accepting (after mode c evs1) -> accepting (after mode c (evs1 ++ evs2)).
Proof. exact no_gap. Qed.

(* C42: in such a history, when nothing is left to do the newest generation, and no other, is left, and it accepts. *)
Theorem C42_handover : forall c evs,
  calm evs -> settled Serving (after Serving c evs) ->
  s_over (after Serving c evs) = false /\
  forall i, (i < generations (after Serving c evs))%nat ->
    phase_of i (after Serving c evs) = Some (if Nat.eqb i (newest (after Serving c evs)) then Run else Gone).
Proof. exact handover. Qed.

(* C42, second half: unless a start has called for the end of the process itself, the process ends only when every
   generation has ended ... *)
Theorem C42_exit_only_when_none : forall c evs i,
  no_exit evs -> s_over (after Serving c evs) = true ->
  (i < generations (after Serving c evs))%nat -> phase_of i (after Serving c evs) = Some Gone.
Proof.
  intros c evs i NX O L. pose proof (counted_after c evs NX) as C. unfold counted in C. rewrite O in C.
  unfold phase_of. destruct (nth_error (s_gens (after Serving c evs)) i) as [g|] eqn:E.
  - simpl. f_equal. eapply C; eauto.
  - apply nth_error_None in E. unfold generations in L. lia.
Qed.

(* ... and if every generation has ended and nothing is left to do, the process has ended. *)
Theorem C42_exit_if_none : forall c evs,
  (forall i, (i < generations (after Serving c evs))%nat -> phase_of i (after Serving c evs) = Some Gone) ->
  settled Serving (after Serving c evs) -> s_over (after Serving c evs) = true.
Proof.
  intros c evs G S. set (s := after Serving c evs) in *. destruct (s_over s) eqn:O; auto. exfalso.
  destruct (settled_form s O (shape_after Serving c evs) S) as [Hh [Sg [T F]]].
  destruct (counted_run c evs s eq_refl) as [C|[i [_ Q]]]; [|congruence].
  unfold counted in C. rewrite O, Sg, T in C. simpl in C.
  assert (Z : forall l, (forall i g, nth_error l i = Some g -> g_phase g = Gone) -> livesum l = 0%Z).
  { induction l as [|x l IH]; intro A; simpl; auto. rewrite IH; [|intros i g Q; apply (A (Datatypes.S i)); exact Q]. rewrite (live_of x Gone); auto. apply (A 0%nat). reflexivity. }
  rewrite Z in C; [lia|]. intros i g H. assert (L : (i < generations s)%nat) by (unfold generations; eapply nth_some_lt; eauto).
  specialize (G i L). unfold phase_of in G. rewrite H in G. injection G as G. exact G.
Qed.

(* C42: after /stop (or anything else that makes the newest generation end) the process does end: what happens by itself is
   bounded, and when nothing is left to do the process is over, all earlier generations included. *)
Theorem C42_stop_exits : forall c evs evs2,
  no_panic evs -> ending (after Serving c evs) ->
  (forall e, In e evs2 -> internal e) ->
  (busy Serving evs2 (after Serving c evs) -> (length evs2 <= 6 * generations (after Serving c evs) + 5)%nat) /\
  (settled Serving (after Serving c (evs ++ evs2)) -> s_over (after Serving c (evs ++ evs2)) = true).
Proof.
  intros c evs evs2 NP E IN. split.
  - intro B. eapply Nat.le_trans; [apply todo_bound; eauto; apply shape_after|apply todo_le].
  - apply ending_settled; auto.
Qed.
(* /stop has this effect in every state in which it gets the lock. *)
Theorem C42_stop_ends : forall c evs,
  no_panic evs -> s_hold (after Serving c evs) = None -> ending (after Serving c (evs ++ [EStop])) \/ s_over (after Serving c evs) = true.
Proof.
  intros c evs NP Hh. destruct (s_over (after Serving c evs)) eqn:O; auto. left. rewrite after_snoc.
  pose proof (shape_after Serving c evs) as Sh. pose proof (unlost_internal Serving c evs [] NP) as U. rewrite app_nil_r in U.
  specialize (U (fun e I => match I with end)). set (s := after Serving c evs) in *. unfold cstep. rewrite O, Hh.
  destruct Sh as [L [Cu _]]. rewrite Cu. fold (generations s). fold (newest s).
  destruct (nth_error (s_gens s) (newest s)) as [g|] eqn:E.
  - destruct (send_close (newest s) s) as [s'|] eqn:S; simpl.
    + right. assert (N : newest s' = newest s).
      { destruct (send_close_cases _ _ _ S) as [->|[y [A [_ [_ ->]]]]]; auto. unfold newest, generations, put, with_gens; cbn [s_gens]. rewrite setg_length. reflexivity. }
      rewrite N. destruct (send_close_told _ _ _ _ S E (U _ _ E)) as [g' [A B]]. exists g'. split; [exact A|exact B].
    + left. reflexivity.
  - exfalso. apply nth_error_None in E. unfold newest, generations in E. lia.
Qed.

(* C83 refuted: a reload whose new generation cannot be started (a port in use, an unreadable certificate)
   does not leave the running generation in place.  It ends the whole service: in every history without a panic, if the
   newest generation fails to start, whatever happens by itself afterwards the process is over when nothing is left to do. *)
Theorem C83_failed_reload_refuted : forall c evs evs2,
  no_panic evs ->
  s_over (after Serving c evs) = false -> phase_of (newest (after Serving c evs)) (after Serving c evs) = Some Prep ->
  (forall e, In e evs2 -> internal e) ->
  settled Serving (after Serving c ((evs ++ [EReady (newest (after Serving c evs)) PFail]) ++ evs2)) ->
  s_over (after Serving c ((evs ++ [EReady (newest (after Serving c evs)) PFail]) ++ evs2)) = true.
Proof.
  intros c evs evs2 NP O P IN. apply ending_settled; auto.
  - intros i I. apply in_app_or in I. destruct I as [I|[I|[]]]; [eapply NP; eauto|discriminate].
  - rewrite after_snoc. set (s := after Serving c evs) in *. unfold phase_of in P.
    destruct (nth_error (s_gens s) (newest s)) as [g|] eqn:E; [|discriminate]. injection P as P.
    unfold cstep. rewrite O, E, P. simpl. right. exists (move Leave g). unfold newest, generations, put, with_gens; cbn [s_gens]. rewrite setg_length.
    split; [|right; left; reflexivity]. eapply nth_setg_same; eauto.
Qed.

(* C84 refuted: a generation whose start panics (a client CA that cannot be added, option.rs get_tls_accept) is
   never counted out: from then on nothing, /stop included, ends the process, unless a start calls for it itself. *)
Theorem C84_panic_never_exits_refuted : forall c evs evs2 i,
  phase_of i (after Serving c evs) = Some Lost -> no_exit (evs ++ evs2) -> s_over (after Serving c (evs ++ evs2)) = false.
Proof.
  intros c evs evs2 i P NX. destruct (s_over (after Serving c (evs ++ evs2))) eqn:O; auto. exfalso.
  pose proof (counted_after c _ NX) as C. unfold counted in C. rewrite O in C.
  pose proof (lost_run Serving evs2 _ _ P) as Q. rewrite <- after_app in Q. unfold phase_of in Q.
  destruct (nth_error (s_gens (after Serving c (evs ++ evs2))) i) as [g|] eqn:E; [|discriminate]. injection Q as Q. rewrite (C _ _ E) in Q. discriminate.
Qed.

(* C84 refuted: if the control port could not be bound the process never ends by itself, even when its only
   generation has. *)
Theorem C84_no_port_never_exits_refuted : forall c evs, no_exit evs -> s_over (after NoPort c evs) = false.
Proof. exact noport_after. Qed.

(* the configurations that /reload read, in order *)
Definition loaded (evs : list cev) : list N := flat_map (fun e => match e with EReload (Some n) => [n] | _ => [] end) evs.
Lemma setg_conf l : forall i g g', nth_error l i = Some g -> g_conf g' = g_conf g -> map g_conf (setg l i g') = map g_conf l.
Proof.
  induction l as [|x l IH]; intros [|i] g g' H E; cbn [nth_error setg map] in *; try discriminate.
  - injection H as ->. now rewrite E.
  - f_equal. eapply IH; eassumption.
Qed.
Lemma setg_nth l : forall i g g' j, nth_error l i = Some g -> g_conf g' = g_conf g -> option_map g_conf (nth_error (setg l i g') j) = option_map g_conf (nth_error l j).
Proof. intros i g g' j H E. rewrite <- !nth_error_map, (setg_conf l i g g') by assumption. reflexivity. Qed.
Lemma put_conf i g g' s : nth_error (s_gens s) i = Some g -> g_conf g' = g_conf g -> map g_conf (s_gens (put i g' s)) = map g_conf (s_gens s).
Proof. intros H E. unfold put, with_gens. cbn [s_gens]. eapply setg_conf; eassumption. Qed.
Lemma send_conf i s s' : send_close i s = Some s' -> map g_conf (s_gens s') = map g_conf (s_gens s).
Proof.
  unfold send_close. destruct (nth_error (s_gens s) i) as [g|] eqn:G; [|intros [= <-]; reflexivity].
  destruct (negb (CtlModel.listens (g_phase g))); [intros [= <-]; reflexivity|]. destruct (g_msg g); [discriminate|]. intros [= <-].
  eapply put_conf; [exact G|reflexivity].
Qed.
Lemma step_conf mode e s : map g_conf (s_gens (fst (cstep mode e s))) =
  map g_conf (s_gens s) ++ match e, mode, s_hold s with EReload (Some n), Serving, None => if s_over s then [] else [n] | _, _, _ => [] end.
Proof.
  unfold cstep. destruct (s_over s); [destruct e as [| | | | | | |[n|]| | | |]; try (destruct mode, (s_hold s)); cbn [fst]; now rewrite app_nil_r|].
  destruct e as [i p|i|i|i|i| | |c| | | |]; rewrite ?app_nil_r.
  - destruct (nth_error (s_gens s) i) as [g|] eqn:G; [|reflexivity]. destruct (g_phase g); try reflexivity. destruct p; cbn [fst]; try (eapply put_conf; [exact G|reflexivity]); reflexivity.
  - destruct (nth_error (s_gens s) i) as [g|] eqn:G; [|reflexivity]. destruct (g_phase g); try reflexivity.
    destruct (match g_prev g with Some j => send_close j s | None => Some s end) as [s'|] eqn:Q; [|reflexivity]. cbn [fst].
    assert (C : map g_conf (s_gens s') = map g_conf (s_gens s)) by (destruct (g_prev g); [eapply send_conf; exact Q|injection Q as <-; reflexivity]).
    assert (D : option_map g_conf (nth_error (s_gens s') i) = Some (g_conf g)) by (rewrite <- nth_error_map, C, nth_error_map, G; reflexivity).
    destruct (nth_error (s_gens s') i) as [g2|] eqn:G2; [|discriminate D]. injection D as D. rewrite <- C. eapply put_conf; [exact G2|]. cbn. now rewrite D.
  - destruct (nth_error (s_gens s) i) as [g|] eqn:G; [|reflexivity]. destruct (g_phase g); try reflexivity. destruct (g_msg g || negb (has_sender i s)); [|reflexivity]. eapply put_conf; [exact G|reflexivity].
  - destruct (nth_error (s_gens s) i) as [g|] eqn:G; [|reflexivity]. destruct (g_phase g); try reflexivity. eapply put_conf; [exact G|reflexivity].
  - destruct (nth_error (s_gens s) i) as [g|] eqn:G; [|reflexivity]. destruct (g_phase g); try reflexivity. destruct (s_sig s); [reflexivity|]. cbn [fst s_gens]. eapply setg_conf; [exact G|reflexivity].
  - destruct mode; try reflexivity; [destruct (s_sig s && negb (s_taken s))|destruct (s_sig s)]; reflexivity.
  - destruct mode; try reflexivity. destruct (s_hold s); try reflexivity. destruct (s_taken s); try reflexivity. cbn zeta. destruct (_ <=? 0)%Z; reflexivity.
  - destruct c as [n|]; [|destruct mode, (s_hold s); rewrite ?app_nil_r; reflexivity]. destruct mode, (s_hold s); rewrite ?app_nil_r; try reflexivity. cbn. now rewrite map_app.
  - reflexivity.
  - destruct mode; try reflexivity. destruct (s_hold s); try reflexivity. destruct (s_cur s) as [i|]; try reflexivity. destruct (send_close i s) as [s'|] eqn:Q; [|reflexivity]. cbn [fst]. eapply send_conf; exact Q.
  - destruct (s_hold s); try reflexivity. destruct (send_close _ s) as [s'|] eqn:Q; [|reflexivity]. cbn [fst with_hold s_gens]. eapply send_conf; exact Q.
  - destruct mode, (s_hold s); reflexivity.
Qed.
Lemma step_over mode e s : s_over s = true -> cstep mode e s = (s, []).
Proof. intros H. unfold cstep. now rewrite H. Qed.
Lemma step_hold mode e s : e <> EStop -> s_hold s = None -> s_hold (fst (cstep mode e s)) = None.
Proof.
  assert (SH : forall i s s', send_close i s = Some s' -> s_hold s' = s_hold s).
  { intros i s0 s'. unfold send_close. destruct (nth_error (s_gens s0) i) as [g|]; [|intros [= <-]; reflexivity].
    destruct (negb (CtlModel.listens (g_phase g))); [intros [= <-]; reflexivity|]. destruct (g_msg g); [discriminate|]. intros [= <-]. reflexivity. }
  intros NE H. unfold cstep. destruct (s_over s); [exact H|]. destruct e as [i p|i|i|i|i| | |c| | | |]; rewrite ?H.
  - destruct (nth_error (s_gens s) i) as [g|]; [|exact H]. destruct (g_phase g); try exact H. destruct p; exact H.
  - destruct (nth_error (s_gens s) i) as [g|]; [|exact H]. destruct (g_phase g); try exact H.
    destruct (match g_prev g with Some j => send_close j s | None => Some s end) as [s'|] eqn:Q; [|exact H]. cbn [fst]. cbn [put with_gens s_hold].
    destruct (g_prev g); [rewrite (SH _ _ _ Q); exact H|injection Q as <-; exact H].
  - destruct (nth_error (s_gens s) i) as [g|]; [|exact H]. destruct (g_phase g); try exact H. destruct (_ || _); exact H.
  - destruct (nth_error (s_gens s) i) as [g|]; [|exact H]. destruct (g_phase g); exact H.
  - destruct (nth_error (s_gens s) i) as [g|]; [|exact H]. destruct (g_phase g); try exact H. destruct (s_sig s); [exact H|reflexivity].
  - destruct mode; try exact H; [destruct (s_sig s && negb (s_taken s))|destruct (s_sig s)]; try exact H; reflexivity.
  - destruct mode; try exact H. destruct (s_taken s); [|exact H]. cbn zeta. destruct (_ <=? 0)%Z; [|reflexivity]. reflexivity.
  - destruct mode; try exact H. destruct c; exact H.
  - exact H.
  - contradiction.
  - exact H.
  - destruct mode; exact H.
Qed.
(* C42: while the process lives and nobody has asked it to stop, there is one generation for
   the configuration of the start and one for each that was loaded, in this order, each with
   its configuration; so the one that is left runs with the one loaded last *)
Theorem C42_configurations : forall c evs, (forall e, In e evs -> e <> EStop) -> s_over (after Serving c evs) = false ->
  map g_conf (s_gens (after Serving c evs)) = c :: loaded evs.
Proof.
  intros c evs. unfold after.
  assert (G : forall s, s_hold s = None -> (forall e, In e evs -> e <> EStop) -> s_over (fst (crun Serving evs s)) = false ->
    map g_conf (s_gens (fst (crun Serving evs s))) = map g_conf (s_gens s) ++ loaded evs).
  2:{ intros N O. rewrite (G (boot c) eq_refl N O). reflexivity. }
  induction evs as [|e evs IH]; intros s H N O; [cbn; now rewrite app_nil_r|].
  cbn [crun] in *. assert (SC := step_conf Serving e s). assert (SH := step_hold Serving e s (N e (or_introl eq_refl)) H).
  assert (SO : s_over s = false).
  { destruct (s_over s) eqn:E; [|reflexivity]. exfalso. rewrite (step_over _ _ _ E) in O. clear - E O.
    assert (F : forall l, fst (crun Serving l s) = s) by (induction l as [|x l IH]; [reflexivity|]; cbn [crun]; rewrite (step_over _ _ _ E); destruct (crun Serving l s); exact IH).
    specialize (F evs). destruct (crun Serving evs s). cbn [fst] in *. congruence. }
  rewrite SO, H in SC. destruct (cstep Serving e s) as [s1 o1]. cbn [fst] in *.
  specialize (IH s1 SH (fun x X => N x (or_intror X))). destruct (crun Serving evs s1) as [s2 o2]. cbn [fst] in *. rewrite (IH O), SC.
  cbn [loaded flat_map]. destruct e as [| | | | | | |[n|]| | | |]; rewrite ?app_nil_r; try reflexivity. rewrite <- app_assoc. reflexivity.
Qed.
Theorem C42_newest : forall c evs, calm evs -> settled Serving (after Serving c evs) ->
  exists g, nth_error (s_gens (after Serving c evs)) (newest (after Serving c evs)) = Some g /\ g_phase g = Run /\ g_conf g = last (loaded evs) c.
Proof.
  intros c evs C ST. destruct (C42_handover c evs C ST) as (O & H).
  assert (NS : forall e, In e evs -> e <> EStop) by (intros e I ->; exact (C _ I)).
  assert (Q := C42_configurations c evs NS O). set (s := after Serving c evs) in *.
  assert (L : generations s = S (length (loaded evs))) by (unfold generations; rewrite <- (map_length g_conf), Q; reflexivity).
  assert (P : phase_of (newest s) s = Some Run) by (rewrite H; [rewrite Nat.eqb_refl; reflexivity|unfold newest; lia]).
  unfold phase_of in P. destruct (nth_error (s_gens s) (newest s)) as [g|] eqn:G; [|discriminate P]. injection P as P. exists g. split; [reflexivity|]. split; [exact P|].
  assert (X : nth_error (c :: loaded evs) (newest s) = Some (g_conf g)) by (rewrite <- Q, nth_error_map, G; reflexivity).
  unfold newest in X. rewrite L in X. cbn [pred] in X. clear - X. revert c X. induction (loaded evs) as [|x l IH]; intros c X; [injection X as <-; reflexivity|].
  cbn [length nth_error] in X.
  assert (E : forall (l : list BinNums.N) x c, last (x :: l) c = last l x).
  { clear. induction l as [|y l IH]; intros x c; [reflexivity|]. change (last (x :: y :: l) c) with (last (y :: l) c). now rewrite !IH. }
  rewrite E. apply IH. exact X.
Qed.
(* C81 refuted: /now always shows the configuration the process was started with, whatever has been loaded since. *)
Theorem C81_now_shows_first_refuted : forall c evs x,
  In (OConf x) (snd (cstep Serving ENow (after Serving c evs))) -> x = c.
Proof.
  intros c evs x. unfold cstep. destruct (s_over _); simpl; [tauto|]. destruct (s_hold _); simpl; [tauto|]. intros [H|[]]. injection H as <-. apply opt_after.
Qed.

(* C82 refuted: /reload answers that the configuration was loaded, whether or not it could be read, and before it is known
   whether the new generation can start.  (Only one whose logs cannot be set up is not answered: C133.) *)
Theorem C82_reload_answer_refuted : forall c evs r,
  s_over (after Serving c evs) = false -> s_hold (after Serving c evs) = None ->
  In OReloaded (snd (cstep Serving (EReload r) (after Serving c evs))) /\
  (r = None -> fst (cstep Serving (EReload r) (after Serving c evs)) = after Serving c evs).
Proof.
  intros c evs r O H. unfold cstep. rewrite O, H. destruct r as [n|]; simpl; split; auto. discriminate.
Qed.

(* The hypotheses are met.  A start, a reload, the handing over, all events of it. *)
Definition up (i : nat) : list cev := [EReady i PReady; ENotify i].
Definition count_out (i : nat) : list cev := [EClose i; ESend i; ETake; EDec].
Definition one_reload : list cev := up 0 ++ [EReload (Some 8)] ++ up 1 ++ count_out 0.
Example C42_nonvacuous_down : In (ODown 0) (snd (cstep Serving (EClose 0) (after Serving 7 (up 0 ++ [EReload (Some 8)] ++ up 1)))).
Proof. vm_compute. auto. Qed.
Example C42_nonvacuous_calm : calm one_reload /\ accepting (after Serving 7 (up 0)) /\ generations (after Serving 7 one_reload) = 2%nat.
Proof.
  split; [|split; [split; [reflexivity|exists 0%nat; reflexivity]|reflexivity]].
  intros e I. repeat (destruct I as [<-|I]; [exact Logic.I || reflexivity|]). destruct I.
Qed.
(* A decision procedure for settled, for the examples: only indices below the number of generations matter. *)
Lemma settled_check : forall s,
  s_over s = true \/
  (s_sig s = false /\ s_taken s = false /\ s_hold s = None /\
   forall i g, nth_error (s_gens s) i = Some g -> g_phase g = Gone \/ g_phase g = Lost \/ (g_phase g = Run /\ g_msg g || negb (has_sender i s) = false)) -> settled Serving s.
Proof.
  intros s [O|[Sg [T [Hh F]]]] e P; unfold cstep; [rewrite O; reflexivity|].
  destruct (s_over s); [reflexivity|].
  destruct e as [i []|i|i|i|i| | |oc| | | | ]; try (destruct P; fail); rewrite ?Sg, ?T, ?Hh; auto;
  destruct (nth_error (s_gens s) i) as [g|] eqn:E; auto; destruct (F _ _ E) as [->|[->|[-> K]]]; try rewrite K; reflexivity.
Qed.
Example C42_nonvacuous_settled : settled Serving (after Serving 7 one_reload).
Proof.
  apply settled_check. right. repeat split; auto. intros [|[|[|i]]] g H; vm_compute in H; try discriminate; injection H as <-; vm_compute; auto.
Qed.
Definition stopped : list cev := one_reload ++ [EStop].
Example C42_nonvacuous_stop : no_panic stopped /\ ending (after Serving 7 stopped) /\ busy Serving (count_out 1) (after Serving 7 stopped)
  /\ (forall e, In e (count_out 1) -> internal e) /\ settled Serving (after Serving 7 (stopped ++ count_out 1)).
Proof.
  split; [|split; [|split; [|split]]].
  - intros i I. repeat (destruct I as [E|I]; [discriminate E|]). destruct I.
  - right. exists (Gen Run (Some 0%nat) true 8). split; [reflexivity|left; reflexivity].
  - repeat split; discriminate.
  - intros e I. repeat (destruct I as [<-|I]; [exact Logic.I|]). destruct I.
  - apply settled_check. left. reflexivity.
Qed.
Example C42_nonvacuous_exit : no_exit (stopped ++ count_out 1) /\ s_over (after Serving 7 (stopped ++ count_out 1)) = true /\ generations (after Serving 7 (stopped ++ count_out 1)) = 2%nat.
Proof. split; [|split; reflexivity]. intros i I. repeat (destruct I as [E|I]; [discriminate E|]). destruct I. Qed.
(* A failed reload while a healthy generation serves: both end and the process with them. *)
Definition bad_reload : list cev := up 0 ++ [EReload (Some 8)].
Definition aftermath : list cev := [ESend 1; ETake; EDec; EClose 0; ESend 0; ETake; EDec].
Example C83_nonvacuous : no_panic bad_reload /\ accepting (after Serving 7 bad_reload)
  /\ newest (after Serving 7 bad_reload) = 1%nat /\ phase_of 1 (after Serving 7 bad_reload) = Some Prep
  /\ (forall e, In e aftermath -> internal e) /\ settled Serving (after Serving 7 ((bad_reload ++ [EReady 1 PFail]) ++ aftermath)).
Proof.
  split; [|split; [split; [reflexivity|exists 0%nat; reflexivity]|split; [reflexivity|split; [reflexivity|split]]]].
  - intros i I. repeat (destruct I as [E|I]; [discriminate E|]). destruct I.
  - intros e I. repeat (destruct I as [<-|I]; [exact Logic.I|]). destruct I.
  - apply settled_check. left. reflexivity.
Qed.
Example C84_nonvacuous : phase_of 1 (after Serving 7 (bad_reload ++ [EReady 1 PPanic])) = Some Lost /\ no_exit ((bad_reload ++ [EReady 1 PPanic]) ++ [EStop; EClose 0; ESend 0; ETake; EDec]).
Proof. split; [reflexivity|]. intros i I. repeat (destruct I as [E|I]; [discriminate E|]). destruct I. Qed.
Example C81_nonvacuous : snd (cstep Serving ENow (after Serving 7 one_reload)) = [OConf 7] /\ option_map g_conf (nth_error (s_gens (after Serving 7 one_reload)) 1) = Some 8.
Proof. split; reflexivity. Qed.
Example C82_nonvacuous : s_over (after Serving 7 one_reload) = false /\ s_hold (after Serving 7 one_reload) = None.
Proof. split; reflexivity. Qed.

Print Assumptions C42_old_stops_after_new.
Print Assumptions C42_no_gap.
Print Assumptions C42_handover.
Print Assumptions C42_configurations.
Print Assumptions C42_newest.
Print Assumptions C42_exit_only_when_none.
Print Assumptions C42_exit_if_none.
Print Assumptions C42_stop_exits.
Print Assumptions C42_stop_ends.
Print Assumptions C83_failed_reload_refuted.
Print Assumptions C84_panic_never_exits_refuted.
Print Assumptions C84_no_port_never_exits_refuted.
Print Assumptions C81_now_shows_first_refuted.
Print Assumptions C82_reload_answer_refuted.
