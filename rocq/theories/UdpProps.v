(* UDP forwarding: the theorems. *)
From Verif Require Import Base UdpModel UdpSpec UdpProofs.
Open Scope N_scope.

Definition trace (tmo : N) (evs : list uev) : list uout := snd (udp_run tmo evs udp0).
Definition final (tmo : N) (evs : list uev) : ust := fst (udp_run tmo evs udp0).
Lemma reach tmo evs : inv (final tmo evs) (trace tmo evs).
Proof. assert (H := udp_run_inv tmo evs udp0 [] inv0). unfold final, trace. now destruct (udp_run tmo evs udp0). Qed.
Lemma run_app tmo e1 : forall e2 st, udp_run tmo (e1 ++ e2) st =
  let (s1, o1) := udp_run tmo e1 st in let (s2, o2) := udp_run tmo e2 s1 in (s2, o1 ++ o2).
Proof.
  induction e1 as [|e e1 IH]; intros e2 st; cbn [app udp_run]; [now destruct (udp_run tmo e2 st)|].
  destruct (udp_step tmo e st) as (s1, o1). rewrite IH. destruct (udp_run tmo e1 s1) as (s2, o2). destruct (udp_run tmo e2 s2) as (s3, o3). now rewrite app_assoc.
Qed.
Lemma trace_app tmo e1 e2 : trace tmo (e1 ++ e2) = trace tmo e1 ++ snd (udp_run tmo e2 (final tmo e1)).
Proof. unfold trace, final. rewrite run_app. destruct (udp_run tmo e1 udp0) as (s1, o1). cbn [fst snd]. now destruct (udp_run tmo e2 s1). Qed.
Lemma final_app tmo e1 e2 : final tmo (e1 ++ e2) = fst (udp_run tmo e2 (final tmo e1)).
Proof. unfold final. rewrite run_app. destruct (udp_run tmo e1 udp0) as (s1, o1). cbn [fst]. now destruct (udp_run tmo e2 s1). Qed.

(* ---- C41: replies ---- *)
(* In every history, the datagrams given to the operating system for clients are, in
   order and without a gap, a first part of what the sessions got for their clients:
   none is invented, duplicated, reordered, or sent to another client. *)
Theorem C41_replies tmo evs : exists waiting, for_clients (trace tmo evs) = to_clients (trace tmo evs) ++ waiting.
Proof. exists (u_cache (final tmo evs) ++ u_recv (final tmo evs)). symmetry. exact (inv_items _ _ (reach tmo evs)). Qed.
(* Nothing stays behind: a poll in which the operating system takes what it is given
   (as many datagrams as sessions got so far) leaves nothing waiting. *)
Theorem C41_flushed tmo evs rs rd cap now up k : (length (for_clients (trace tmo evs)) <= k)%nat ->
  let evs' := evs ++ [UPoll (repeat true k) rs rd cap now up] in to_clients (trace tmo evs') = for_clients (trace tmo evs').
Proof.
  intros L evs'. assert (I := inv_items _ _ (reach tmo evs)). unfold evs'. rewrite trace_app. cbn [udp_run udp_step].
  assert (LL : (length (u_cache (final tmo evs) ++ u_recv (final tmo evs)) <= k)%nat) by (rewrite <- I in L; rewrite app_length in L; lia).
  unfold udp_poll. rewrite write_out_all; [|rewrite repeat_length; exact LL|apply forallb_forall; intros x X; now apply repeat_spec in X].
  destruct (hand_out rs (u_sendc (final tmo evs)) (u_sess (final tmo evs)) (u_tasks (final tmo evs))) as (sendc, ts).
  set (q := u_cache (final tmo evs) ++ u_recv (final tmo evs)) in *.
  assert (Q1 : to_clients (map (fun x => OClient (fst x) (snd x)) q) = q). { clear. induction q as [|(d, a) q IH]; cbn; [reflexivity|]. now f_equal. }
  assert (Q2 : for_clients (map (fun x => OClient (fst x) (snd x)) q) = []). { clear. induction q as [|(d, a) q IH]; cbn; auto. }
  destruct rd as [(a, d)|]; cbn [snd].
  - destruct (process_data tmo now up (firstn cap d) a _) as (st', o') eqn:P. cbn [snd]. rewrite app_nil_r, !to_app, !for_app, Q1, Q2. cbn [to_clients for_clients flat_map app].
    assert (O : o' = [] \/ exists i r, o' = [OOpen i a r]).
    { unfold process_data in P. destruct (lookup N.eqb a _); [destruct (now - us_last u <=? tmo)|]; [injection P as <- <-; auto| |]; destruct up; injection P as <- <-; eauto. }
    destruct O as [-> | (i & r & ->)]; cbn [flat_map app]; rewrite !app_nil_r; exact I.
  - rewrite app_nil_r, to_app, for_app, Q1, Q2, app_nil_r. exact I.
Qed.
(* ---- C41: sessions ---- *)
(* What a session sends upstream goes to the upstream it was opened with, and what it
   sends or receives belongs to the client it was opened for; a session has one client
   and one upstream. *)
Theorem C41_own_session tmo evs i a r : let tr := trace tmo evs in
  (forall d, In (OUp i a d r) tr -> In (OOpen i a r) tr) /\
  (forall src d, In (OReply i a src d) tr -> exists r', In (OOpen i a r') tr) /\
  (forall a' r', In (OOpen i a r) tr -> In (OOpen i a' r') tr -> a = a' /\ r = r').
Proof.
  intro tr. assert (I := reach tmo evs). fold tr in I. split; [|split].
  - intros d H. exact (inv_use _ _ I _ H).
  - intros src d H. exact (inv_use _ _ I _ H).
  - intros a' r' H1 H2. apply (inv_open _ _ I) in H1. apply (inv_open _ _ I) in H2. destruct H1 as (t & E & F & G). destruct H2 as (t' & E' & F' & G'). split; congruence.
Qed.
(* A datagram goes upstream for a client at most as often as it came from that client. *)
Theorem C41_upstream tmo evs a d : (went_up a d (trace tmo evs) <= came a d (trace tmo evs))%nat.
Proof. assert (H := inv_count _ _ (reach tmo evs) a d). lia. Qed.
(* Datagrams of a live session go on: a datagram read while its session runs and has
   nothing queued is sent upstream by the session once both have their turn. *)
Theorem C41_goes_up tmo evs a d s r now1 now2 up1 up2 :
  u_sendc (final tmo evs) = [] -> lookup N.eqb a (u_sess (final tmo evs)) = Some s -> now1 - us_last s <= tmo ->
  nth_error (u_tasks (final tmo evs)) (us_task s) = Some (UTask a r [] [] Running) -> nlen d <= 9096 ->
  let k := length (for_clients (trace tmo evs)) in
  let evs' := [UPoll (repeat true k) [] (Some (a, d)) (N.to_nat 9096) now1 up1; UPoll [] [true] None 0 now2 up2; TTake (us_task s); TSend (us_task s) true] in
  In (OUp (us_task s) a d r) (trace tmo (evs ++ evs')).
Proof.
  intros SC L T N D k evs'. rewrite trace_app. apply in_app_iff. right. set (st := final tmo evs) in *.
  assert (I := inv_items _ _ (reach tmo evs)). fold st in I.
  assert (LL : (length (u_cache st ++ u_recv st) <= k)%nat) by (unfold k; rewrite <- I, (app_length (to_clients _)); lia).
  unfold evs'. cbn [udp_run udp_step]. unfold udp_poll at 1.
  rewrite write_out_all; [|rewrite repeat_length; exact LL|apply forallb_forall; intros x X; now apply repeat_spec in X].
  rewrite SC. cbn [hand_out]. unfold process_data. cbn [u_sess]. rewrite L. apply N.leb_le in T. rewrite T. rewrite firstn_all2 by (unfold nlen in D; lia).
  unfold udp_poll. cbn [u_recv u_cache u_sendc u_sess u_tasks app write_out hand_out]. rewrite lookup_insert_eq by apply N.eqb_eq. cbn [us_task]. rewrite N. cbn [t_life t_chan t_origin t_remote t_sendq length hd tl andb].
  change ((0 <? chan_cap)%nat) with true. cbn iota. cbn [u_tasks]. rewrite (upd_eq _ _ _ _ N). cbn [app set_task u_tasks]. rewrite (upd_eq _ _ _ _ (upd_eq _ _ _ _ N)). cbn [snd].
  rewrite !in_app_iff. cbn [In app]. tauto.
Qed.
(* No datagram is lost or kept back for good while no session ends: whatever happened, the listening side and the sessions
   can go on, without reading anything more, until every datagram has gone upstream as often as it came. *)
Theorem C41_none_lost tmo evs : Forall keeps_going evs -> exists evs', Forall keeps_going evs' /\
  let tr := trace tmo (evs ++ evs') in forall a d, came a d tr = came a d (trace tmo evs) /\ went_up a d tr = came a d tr.
Proof.
  intros K. assert (I := reach tmo evs). assert (Lv := live_run tmo evs K udp0 [] inv0 live0).
  assert (Lv' : live (final tmo evs) (trace tmo evs)) by (unfold final, trace; destruct (udp_run tmo evs udp0); exact Lv). clear Lv.
  destruct (drain tmo _ _ _ eq_refl I Lv') as (evs' & K' & D). exists evs'. split; [exact K'|]. intros tr a d. unfold tr. rewrite trace_app.
  assert (L2 := live_run tmo evs' K' _ _ I Lv'). destruct (udp_run tmo evs' (final tmo evs)) as (st', o). cbn [snd]. destruct (D a d) as (C & H).
  assert (E := lv_eq _ _ L2 a d). rewrite came_app in *. rewrite C, H in *. split; lia.
Qed.
(* C73, the part that holds: whatever happened before, a datagram of a client that has
   no session, or whose last datagram is longer ago than the timeout, opens a new one and
   is sent upstream by it. *)
Theorem C73_new_session_partial tmo evs a d r now : nlen d <= 9096 ->
  (lookup N.eqb a (u_sess (final tmo evs)) = None \/ exists s, lookup N.eqb a (u_sess (final tmo evs)) = Some s /\ now > us_last s + tmo) ->
  let k := length (for_clients (trace tmo evs)) in
  exists i, let tr := trace tmo (evs ++ [UPoll (repeat true k) [] (Some (a, d)) (N.to_nat 9096) now (Some r); TSend i true]) in
  ~ (exists a' r', In (OOpen i a' r') (trace tmo evs)) /\ In (OOpen i a r) tr /\ In (OUp i a d r) tr.
Proof.
  intros D H k. set (st := final tmo evs) in *. assert (IV := reach tmo evs). fold st in IV.
  assert (I := inv_items _ _ IV).
  assert (LL : (length (u_cache st ++ u_recv st) <= k)%nat) by (unfold k; rewrite <- I, (app_length (to_clients _)); lia).
  assert (SL : forall rs, exists sendc ts, hand_out rs (u_sendc st) (u_sess st) (u_tasks st) = (sendc, ts) /\ length ts = length (u_tasks st)).
  { intro rs. destruct (hand_out rs (u_sendc st) (u_sess st) (u_tasks st)) as (sendc, ts) eqn:E. exists sendc, ts. split; [reflexivity|]. destruct (hand_out_spec _ _ _ _ _ _ (inv_wf _ _ IV) E) as ((S & _) & _). now symmetry. }
  destruct (SL []) as (sendc & ts & HO & LT).
  exists (length (u_tasks st)). cbv zeta. split.
  { intros (a' & r' & X). apply (inv_open _ _ IV) in X. destruct X as (t & E & _). assert (length (u_tasks st) < length (u_tasks st))%nat by (apply nth_error_Some; congruence). lia. }
  rewrite trace_app. fold st. cbn [udp_run udp_step]. unfold udp_poll.
  rewrite write_out_all; [|rewrite repeat_length; exact LL|apply forallb_forall; intros x X; now apply repeat_spec in X].
  rewrite HO. rewrite firstn_all2 by (unfold nlen in D; lia).
  match goal with |- context [process_data tmo now (Some r) d a ?z] => set (s1 := z) end.
  assert (P : exists se, process_data tmo now (Some r) d a s1 = (USt [] [] sendc se (ts ++ [UTask a r [] [d] Running]), [OOpen (length (u_tasks st)) a r])).
  { unfold process_data. change (u_sess s1) with (u_sess st). destruct H as [-> | (s & -> & T)].
    - eexists. unfold s1. cbn [u_recv u_cache u_sendc u_tasks]. rewrite LT. reflexivity.
    - assert (T' : now - us_last s <=? tmo = false) by (apply N.leb_gt; lia). rewrite T'. eexists. unfold s1. cbn [u_recv u_cache u_sendc u_tasks]. rewrite LT. reflexivity. }
  destruct P as (se & ->). cbn [u_tasks]. rewrite nth_error_app2 by lia. rewrite LT, Nat.sub_diag. cbn [nth_error snd].
  rewrite !in_app_iff. cbn [In]. split; tauto.
Qed.

(* ---- C76: the client gets something else ---- *)
(* A session that ends is announced to its client as an empty datagram, although no
   upstream ever sent one. *)
Theorem C76_spurious_refuted tmo a r d cap : let tr := trace tmo [UPoll [] [] (Some (a, d)) cap 0 (Some r); TSend 0 true; TStop 0; TNotice 0; UPoll [true] [] None 0 0 None] in
  (forall i a' src x, ~ In (OReply i a' src x) tr) /\ In (OClient [] a) tr.
Proof.
  cbn. split; [|tauto]. intros i a' src x H. repeat (destruct H as [H|H]; [discriminate|]). exact H.
Qed.
(* A reply longer than 9096 bytes reaches the client cut short. *)
Theorem C76_truncated_refuted tmo a r d x cap : 9096 < nlen x -> let tr := trace tmo [UPoll [] [] (Some (a, d)) cap 0 (Some r); TSend 0 true; TReply 0 r x; UPoll [true] [] None 0 0 None] in
  In (OReply 0 a r x) tr /\ ~ In (OClient x a) tr /\ In (OClient (firstn (N.to_nat 9096) x) a) tr.
Proof.
  intros L tr.
  assert (E : tr = [OIn a (firstn cap d); OOpen 0 a r; OUp 0 a (firstn cap d) r; OReply 0 a r x; OClient (firstn reply_cap x) a]) by (unfold tr, trace; cbn [udp_run udp_step udp_poll write_out hand_out process_data lookup udp0 u_cache u_recv u_sendc u_sess u_tasks app nth_error length set_task push_recv upd insert chan_cap Nat.ltb Nat.leb snd]; reflexivity).
  rewrite E. split; [cbn; tauto|]. split; [|cbn; tauto].
  cbn [In]. intros [H|[H|[H|[H|[H|[]]]]]]; try discriminate. apply (f_equal (fun o => match o with OClient y _ => length y | _ => O end)) in H. cbv beta iota in H. assert (Q : length (firstn reply_cap x) = reply_cap) by (apply firstn_length_le; unfold reply_cap, nlen in *; lia).
  unfold reply_cap, bytes, nlen in *. lia.
Qed.
(* C74: a datagram from anybody who knows the port of the session's socket reaches the
   client like a reply of the upstream. *)
Theorem C74_any_source_refuted tmo a r d x cap src : nlen x <= 9096 ->
  let tr := trace tmo [UPoll [] [] (Some (a, d)) cap 0 (Some r); TSend 0 true; TReply 0 src x; UPoll [true] [] None 0 0 None] in
  (forall i y, ~ In (OReply i a r y) tr \/ src = r) /\ In (OReply 0 a src x) tr /\ In (OClient x a) tr.
Proof.
  intros L tr.
  assert (E : tr = [OIn a (firstn cap d); OOpen 0 a r; OUp 0 a (firstn cap d) r; OReply 0 a src x; OClient x a]).
  { unfold tr, trace; cbn [udp_run udp_step udp_poll write_out hand_out process_data lookup udp0 u_cache u_recv u_sendc u_sess u_tasks app nth_error length set_task push_recv upd insert chan_cap Nat.ltb Nat.leb snd].
    rewrite (firstn_all2 (n := reply_cap) x) by (unfold reply_cap, nlen in *; lia). reflexivity. }
  rewrite E. split; [|cbn; tauto]. intros i y. destruct (N.eq_dec src r) as [->|Ne]; [auto|]. left. cbn [In]. intros [H|[H|[H|[H|[H|[]]]]]]; try discriminate. injection H as _ H _. congruence.
Qed.

(* C73: the datagrams of client a come at most the timeout after one another (the polls
   that read them meet no error) *)
Fixpoint steady (tmo : N) (a : uaddr) (last : N) (evs : list uev) : Prop :=
  match evs with
  | [] => True
  | UPoll wr _ (Some (a', _)) _ now _ :: evs' =>
    if a' =? a then forallb (fun b => b) wr = true /\ now - last <= tmo /\ steady tmo a now evs' else steady tmo a last evs'
  | _ :: evs' => steady tmo a last evs'
  end.
Definition dead (a : uaddr) (last : N) (st : ust) : Prop :=
  exists s t, lookup N.eqb a (u_sess st) = Some s /\ us_last s = last /\ nth_error (u_tasks st) (us_task s) = Some t /\ t_life t <> Running /\
  forall j u, nth_error (u_tasks st) j = Some u -> t_origin u = a -> t_life u <> Running.
Lemma write_ok flags : forall q, forallb (fun b => b) flags = true -> exists o r, write_out flags q = (o, r, true).
Proof.
  induction flags as [|f flags IH]; intros [|(d, a) q] H; cbn [write_out]; eauto. cbn in H. apply andb_true_iff in H. destruct H as (-> & H). destruct (IH q H) as (o & r & ->). eauto.
Qed.
Lemma hand_out_life q : forall flags se ts q' ts' , hand_out flags q se ts = (q', ts') ->
  forall j u', nth_error ts' j = Some u' -> exists u, nth_error ts j = Some u /\ t_origin u' = t_origin u /\ t_life u' = t_life u.
Proof.
  induction q as [|(d, a) q IH]; intros flags se ts q' ts' H j u' U; cbn [hand_out] in H; [injection H as <- <-; eauto|].
  destruct (lookup N.eqb a se) as [s|]; [|eapply IH; eassumption]. destruct (nth_error ts (us_task s)) as [t|] eqn:E; [|eapply IH; eassumption].
  destruct (t_life t) eqn:TL; [|eapply IH; eassumption|eapply IH; eassumption]. destruct (hd false flags && (length (t_chan t) <? chan_cap)%nat).
  - destruct (IH _ _ _ _ _ H _ _ U) as (u & A & B & C). destruct (Nat.eq_dec (us_task s) j) as [<-|Ne].
    + rewrite (upd_eq _ _ _ _ E) in A. injection A as <-. cbn in B, C. exists t. split; [exact E|]. split; congruence.
    + rewrite upd_ne in A by exact Ne. eauto.
  - destruct (hand_out (tl flags) q se ts) as (r, ts2) eqn:Hh. injection H as <- <-. eapply IH; eassumption.
Qed.
Lemma hand_out_len q : forall flags se ts q' ts' , hand_out flags q se ts = (q', ts') -> length ts' = length ts.
Proof.
  induction q as [|(d, a) q IH]; intros flags se ts q' ts' H; cbn [hand_out] in H; [now injection H as <- <-|].
  destruct (lookup N.eqb a se) as [s|]; [|eapply IH; eassumption]. destruct (nth_error ts (us_task s)) as [t|] eqn:E; [|eapply IH; eassumption].
  destruct (t_life t) eqn:TL; [|eapply IH; eassumption|eapply IH; eassumption]. destruct (hd false flags && (length (t_chan t) <? chan_cap)%nat).
  - rewrite (IH _ _ _ _ _ H). apply upd_length.
  - destruct (hand_out (tl flags) q se ts) as (r, ts2) eqn:Hh. injection H as <- <-. eapply IH; eassumption.
Qed.
Lemma write_noup flags : forall q o r ok, write_out flags q = (o, r, ok) -> forall i a d u, ~ In (OUp i a d u) o.
Proof.
  intros q o r ok H i a d u I. destruct (write_out_spec _ _ _ _ _ H) as (_ & _ & _ & D). destruct (D _ I) as (d' & a' & [X|X]); discriminate.
Qed.
(* a step of a task leaves a dead client dead *)
Lemma dead_task a last st i t t' : dead a last st -> nth_error (u_tasks st) i = Some t -> t_origin t' = t_origin t -> (t_life t' = t_life t \/ t_life t' <> Running) ->
  dead a last (set_task i t' st).
Proof.
  intros (s & t0 & L & T & E & D & All) N O LF.
  assert (K : forall j u, nth_error (u_tasks (set_task i t' st)) j = Some u -> t_origin u = a -> t_life u <> Running).
  { intros j u U OU. cbn [set_task u_tasks] in U. destruct (Nat.eq_dec i j) as [<-|Ne].
    - rewrite (upd_eq _ _ _ _ N) in U. injection U as <-. destruct LF as [-> | LF]; [|exact LF]. apply (All _ _ N). congruence.
    - rewrite upd_ne in U by exact Ne. eapply All; eassumption. }
  destruct (Nat.eq_dec i (us_task s)) as [Eq|Ne].
  - subst i. exists s, t'. cbn [set_task u_sess u_tasks]. split; [exact L|]. split; [exact T|]. split; [eapply upd_eq; exact E|]. split; [|exact K].
    assert (t = t0) by congruence. subst t0. destruct LF as [-> | LF]; assumption.
  - exists s, t0. cbn [set_task u_sess u_tasks]. split; [exact L|]. split; [exact T|]. split; [rewrite upd_ne by exact Ne; exact E|]. split; [exact D|exact K].
Qed.
Lemma dead_step tmo a last ev st : wf (u_sess st) (u_tasks st) -> dead a last st -> steady tmo a last [ev] ->
  let (st', o) := udp_step tmo ev st in dead a (match ev with UPoll _ _ (Some (a', _)) _ now _ => if a' =? a then now else last | _ => last end) st' /\ forall i d r, ~ In (OUp i a d r) o.
Proof.
  intros W DD S. assert (DD0 := DD). destruct DD as (s & t & L & T & E & D & All).
  destruct ev as [wr rs rd cap now up|i|i ok|i src d|i|i]; cbn [udp_step].
  - unfold udp_poll. destruct (write_out wr (u_cache st ++ u_recv st)) as [[o c] ok] eqn:WO. assert (NU := write_noup _ _ _ _ _ WO).
    destruct ok.
    + destruct (hand_out rs (u_sendc st) (u_sess st) (u_tasks st)) as (sendc, ts) eqn:HO.
      assert (HL := hand_out_life _ _ _ _ _ _ HO). destruct (hand_out_spec _ _ _ _ _ _ W HO) as (SM & _).
      assert (D1 : dead a last (USt [] c sendc (u_sess st) ts)).
      { destruct SM as (LN & SM). destruct (SM _ _ E) as (t1 & E1 & O1 & R1). destruct (HL _ _ E1) as (u & A & B & C). assert (u = t) by congruence. subst u.
        exists s, t1. cbn [u_sess u_tasks]. split; [exact L|]. split; [exact T|]. split; [exact E1|]. split; [congruence|].
        intros j u U OU. destruct (HL _ _ U) as (u0 & A0 & B0 & C0). rewrite C0. apply (All j u0 A0). congruence. }
      destruct rd as [(a', d)|]; [|split; [exact D1|intros; apply NU]].
      destruct (process_data tmo now up (firstn cap d) a' (USt [] c sendc (u_sess st) ts)) as (st', o') eqn:P.
      cbn [steady] in S. destruct (a' =? a) eqn:Ea.
      * apply N.eqb_eq in Ea. subst a'. destruct S as (_ & G & _). unfold process_data in P. cbn [u_sess] in P. rewrite L in P. rewrite T in P. apply N.leb_le in G. rewrite G in P. injection P as <- <-.
        split. 2:{ intros i d' r I. apply in_app_iff in I. destruct I as [I|[I|[]]]; [exact (NU _ _ _ _ I)|discriminate]. }
        destruct D1 as (s1 & t1 & L1 & T1 & E1 & D1 & All1). cbn [u_sess u_tasks] in *. assert (s1 = s) by congruence. subst s1.
        eexists _, t1. cbn [u_sess u_tasks]. split; [apply lookup_insert_eq, N.eqb_eq|]. split; [reflexivity|]. split; [exact E1|]. split; [exact D1|exact All1].
      * apply N.eqb_neq in Ea. destruct D1 as (s1 & t1 & L1 & T1 & E1 & D1 & All1). cbn [u_sess u_tasks] in *.
        assert (OO : forall i d' r, ~ In (OUp i a d' r) (o ++ OIn a' (firstn cap d) :: o')).
        { intros i d' r I. apply in_app_iff in I. destruct I as [I|[I|I]]; [exact (NU _ _ _ _ I)|discriminate|].
          unfold process_data in P. cbn [u_sess u_tasks u_sendc u_recv u_cache] in P. destruct (lookup N.eqb a' (u_sess st)); [destruct (now - us_last u <=? tmo)|]; [injection P as <- <-; destruct I| |];
            destruct up; injection P as <- <-; cbn [In] in I; intuition discriminate. }
        split; [|exact OO].
        assert (AllN : forall r0 dd j u, nth_error (ts ++ [UTask a' r0 [] [dd] Running]) j = Some u -> t_origin u = a -> t_life u <> Running).
        { intros r0 dd j u U OU. destruct (Nat.lt_ge_cases j (length ts)) as [Lt|Ge].
          - rewrite nth_error_app1 in U by exact Lt. eapply All1; eassumption.
          - rewrite nth_error_app2 in U by exact Ge. destruct (j - length ts)%nat as [|k]; cbn in U; [|destruct k; discriminate]. injection U as <-. cbn in OU. congruence. }
        assert (NA : forall x, nth_error (ts ++ [x]) (us_task s1) = Some t1) by (intro x; rewrite nth_error_app1; [exact E1|apply nth_error_Some; congruence]).
        unfold process_data in P. cbn [u_sess u_tasks u_sendc u_recv u_cache] in P. destruct (lookup N.eqb a' (u_sess st)) as [s'|].
        -- destruct (now - us_last s' <=? tmo); [|destruct up]; injection P as <- <-; exists s1, t1; cbn [u_sess u_tasks];
             rewrite ?lookup_insert_ne, ?lookup_remove_ne by (apply N.eqb_eq || congruence); rewrite ?NA; repeat split; auto. apply AllN.
        -- destruct up; injection P as <- <-; exists s1, t1; cbn [u_sess u_tasks]; rewrite ?lookup_insert_ne by (apply N.eqb_eq || congruence); rewrite ?NA; repeat split; auto. apply AllN.
    + assert (NR : match rd with Some (a', _) => a' =? a = false | None => True end).
      { destruct rd as [(a', d)|]; [|exact I]. cbn [steady] in S. destruct (a' =? a); [|reflexivity]. destruct S as (S & _). destruct (write_ok wr (u_cache st ++ u_recv st) S) as (x & y & Q). rewrite Q in WO. discriminate. }
      split; [|intros; apply NU]. assert (D2 : dead a last (USt [] c (u_sendc st) (u_sess st) (u_tasks st))) by (exists s, t; repeat split; auto). destruct rd as [(a', d)|]; [rewrite NR|]; exact D2.
  - destruct (nth_error (u_tasks st) i) as [[o r [|d ch] sq []]|] eqn:Ei; try (split; [exact DD0|intros ? ? ? []; fail]).
    split; [|intros ? ? ? []]. eapply dead_task; [exact DD0|exact Ei|reflexivity|left; reflexivity].
  - destruct (nth_error (u_tasks st) i) as [[o r ch [|d sq] []]|] eqn:Ei; try (split; [exact DD0|intros ? ? ? []; fail]). destruct ok.
    + split; [eapply dead_task; [exact DD0|exact Ei|reflexivity|left; reflexivity]|]. intros j d' r' [I|[]]. injection I as _ I _ _. apply (All _ _ Ei); cbn; congruence.
    + split; [|intros ? ? ? []]. eapply dead_task; [exact DD0|exact Ei|reflexivity|right; discriminate].
  - destruct (nth_error (u_tasks st) i) as [[o r ch sq []]|] eqn:Ei; try (split; [exact DD0|intros ? ? ? []; fail]). destruct (length (u_recv st) <? chan_cap)%nat.
    + split; [exact DD0|]. intros j d' r' [I|[]]. discriminate.
    + split; [exact DD0|intros ? ? ? []].
  - destruct (nth_error (u_tasks st) i) as [[o r ch sq []]|] eqn:Ei; try (split; [exact DD0|intros ? ? ? []; fail]).
    split; [|intros ? ? ? []]. eapply dead_task; [exact DD0|exact Ei|reflexivity|right; discriminate].
  - destruct (nth_error (u_tasks st) i) as [[o r ch sq []]|] eqn:Ei; try (split; [exact DD0|intros ? ? ? []; fail]). destruct (length (u_recv st) <? chan_cap)%nat; [|split; [exact DD0|intros ? ? ? []]].
    split; [|intros j d' r' [I|[]]; discriminate]. apply (dead_task a last (push_recv ([], o) st) i (UTask o r ch sq Ending)); [exact DD0|exact Ei|reflexivity|right; discriminate].
Qed.
Lemma steady_cons tmo a last ev evs : steady tmo a last (ev :: evs) ->
  steady tmo a last [ev] /\ steady tmo a (match ev with UPoll _ _ (Some (a', _)) _ now _ => if a' =? a then now else last | _ => last end) evs.
Proof. destruct ev as [wr rs [(a', d)|] cap now up|i|i ok|i src d|i|i]; cbn [steady]; auto. destruct (a' =? a); [|auto]. intros (A & B & C). auto. Qed.
Lemma dead_run tmo a evs : forall last st tr, inv st tr -> dead a last st -> steady tmo a last evs -> forall i d r, ~ In (OUp i a d r) (snd (udp_run tmo evs st)).
Proof.
  induction evs as [|e evs IH]; intros last st tr IV D S i d r; cbn [udp_run]; [intros []|].
  destruct (steady_cons _ _ _ _ _ S) as (S1 & S2). assert (P := dead_step tmo a last e st (inv_wf _ _ IV) D S1). assert (Q := udp_step_inv tmo e st tr IV).
  destruct (udp_step tmo e st) as (st1, o1). destruct P as (D1 & N1). specialize (IH _ _ _ Q D1 S2 i d r). destruct (udp_run tmo evs st1) as (st2, o2). cbn [snd] in *.
  rewrite in_app_iff. intros [I|I]; [exact (N1 _ _ _ I)|exact (IH I)].
Qed.
(* After one failed send of its session a client that keeps sending, never pausing for
   longer than the timeout, is cut off for ever: none of its datagrams goes upstream,
   whatever else happens. *)
Theorem C73_black_hole_refuted tmo a r d cap t0 evs : steady tmo a t0 evs ->
  let tr := trace tmo (UPoll [] [] (Some (a, d)) cap t0 (Some r) :: TSend 0 false :: evs) in forall i x u, ~ In (OUp i a x u) tr.
Proof.
  intros S tr i x u. unfold tr. change (UPoll [] [] (Some (a, d)) cap t0 (Some r) :: TSend 0 false :: evs) with ([UPoll [] [] (Some (a, d)) cap t0 (Some r); TSend 0 false] ++ evs).
  rewrite trace_app, in_app_iff. intros [I|I].
  - cbn in I. repeat (destruct I as [I|I]; [discriminate|]). exact I.
  - revert I. eapply dead_run; [apply reach| |exact S]. unfold final. cbn [udp_run udp_step udp_poll write_out hand_out process_data lookup udp0 u_cache u_recv u_sendc u_sess u_tasks app nth_error length set_task upd insert fst]. eexists (USess 0 t0), _. cbn [u_sess u_tasks set_task upd lookup us_task us_last nth_error]. rewrite N.eqb_refl. split; [reflexivity|]. split; [reflexivity|]. split; [reflexivity|]. split; [discriminate|].
    intros [|[|j]] v V O; cbn in V; try discriminate. injection V as <-. discriminate.
Qed.
(* a client that sends ten datagrams a second, with replies and stops in between *)
Example ex_steady : steady 60000 7 0 [UPoll [] [] (Some (7, [1])) (N.to_nat 9096) 100 (Some 9); UPoll [true] [true] (Some (7, [2])) (N.to_nat 9096) 200 (Some 9); TNotice 0; UPoll [true] [true; true] (Some (8, [3])) (N.to_nat 9096) 250 (Some 9); UPoll [] [] (Some (7, [4])) (N.to_nat 9096) 300 (Some 9)].
Proof. cbn. repeat split; discriminate. Qed.

(* ---- C75: the table of sessions ---- *)
(* As long as an upstream is available, every client that ever sent a datagram keeps its
   entry for ever, also after its session has ended. *)
Definition upstream_up (ev : uev) : Prop := match ev with UPoll _ _ _ _ _ up => up <> None | _ => True end.
Lemma keep_step tmo ev st : upstream_up ev -> let (st', o) := udp_step tmo ev st in
  forall a, (lookup N.eqb a (u_sess st) <> None \/ exists d, In (OIn a d) o) -> lookup N.eqb a (u_sess st') <> None.
Proof.
  intro U. destruct ev as [wr rs rd cap now up|i|i ok|i src d|i|i]; cbn [udp_step].
  2: destruct (nth_error (u_tasks st) i) as [[o r [|d ch] sq []]|]; try (intros a [H|(? & [])]; exact H).
  2: destruct (nth_error (u_tasks st) i) as [[o r ch [|d sq] []]|]; try (intros a [H|(? & [])]; exact H); destruct ok; intros a [H|(x & I)]; try exact H; cbn [In] in I; intuition discriminate.
  2: destruct (nth_error (u_tasks st) i) as [[o r ch sq []]|]; try (intros a [H|(? & [])]; exact H); destruct (length (u_recv st) <? chan_cap)%nat; intros a [H|(x & I)]; try exact H; cbn [In] in I; intuition discriminate.
  2: destruct (nth_error (u_tasks st) i) as [[o r ch sq []]|]; try (intros a [H|(? & [])]; exact H).
  2: destruct (nth_error (u_tasks st) i) as [[o r ch sq []]|]; try (intros a [H|(? & [])]; exact H); destruct (length (u_recv st) <? chan_cap)%nat; intros a [H|(x & I)]; try exact H; cbn [In] in I; intuition discriminate.
  unfold udp_poll. destruct (write_out wr (u_cache st ++ u_recv st)) as [[o c] ok] eqn:WO.
  assert (NI : forall a d, ~ In (OIn a d) o). { intros a d I. destruct (write_out_spec _ _ _ _ _ WO) as (_ & _ & _ & D). destruct (D _ I) as (d' & a' & [X|X]); discriminate. }
  destruct ok; [|intros a [H|(x & I)]; [exact H|destruct (NI _ _ I)]].
  destruct (hand_out rs (u_sendc st) (u_sess st) (u_tasks st)) as (sendc, ts).
  destruct rd as [(a', d)|]; [|intros a [H|(x & I)]; [exact H|destruct (NI _ _ I)]].
  destruct (process_data tmo now up (firstn cap d) a' (USt [] c sendc (u_sess st) ts)) as (st', o') eqn:P.
  cbn in U. destruct up as [r|]; [|congruence].
  assert (SE : exists s, u_sess st' = insert N.eqb a' s (u_sess st) \/ u_sess st' = insert N.eqb a' s (remove N.eqb a' (u_sess st))).
  { unfold process_data in P. cbn [u_sess u_tasks u_sendc u_recv u_cache] in P. destruct (lookup N.eqb a' (u_sess st)); [destruct (now - us_last u <=? tmo)|]; injection P as <- <-; cbn [u_sess]; eauto. }
  assert (OO : forall b x, In (OIn b x) o' -> False).
  { intros b x I. unfold process_data in P. cbn [u_sess u_tasks u_sendc u_recv u_cache] in P. destruct (lookup N.eqb a' (u_sess st)); [destruct (now - us_last u <=? tmo)|]; injection P as <- <-; cbn [In] in I; intuition discriminate. }
  intros b H. destruct (N.eq_dec b a') as [->|Ne].
  - destruct SE as (s & [-> | ->]); rewrite lookup_insert_eq by apply N.eqb_eq; discriminate.
  - assert (HB : lookup N.eqb b (u_sess st) <> None).
    { destruct H as [H|(x & I)]; [exact H|]. apply in_app_iff in I. destruct I as [I|[I|I]]; [destruct (NI _ _ I)|injection I as I _; congruence|destruct (OO _ _ I)]. }
    destruct SE as (s & [-> | ->]); rewrite lookup_insert_ne by (apply N.eqb_eq || exact Ne); [exact HB|]. rewrite lookup_remove_ne by (apply N.eqb_eq || exact Ne). exact HB.
Qed.
Lemma keep_run tmo evs : Forall upstream_up evs -> forall st a, let (st', o) := udp_run tmo evs st in (lookup N.eqb a (u_sess st) <> None \/ exists d, In (OIn a d) o) -> lookup N.eqb a (u_sess st') <> None.
Proof.
  induction 1 as [|e evs U F IH]; intros st a; cbn [udp_run]; [intros [H|(? & [])]; exact H|].
  assert (K := keep_step tmo e st U). destruct (udp_step tmo e st) as (st1, o1). specialize (IH st1 a). destruct (udp_run tmo evs st1) as (st2, o2).
  intros [H|(d & I)]; apply IH; [left; apply K; auto|]. apply in_app_iff in I. destruct I as [I|I]; [left; apply K; eauto|right; eauto].
Qed.
Theorem C75_kept_for_ever_refuted tmo evs a d : Forall upstream_up evs -> In (OIn a d) (trace tmo evs) -> lookup N.eqb a (u_sess (final tmo evs)) <> None.
Proof. intros U I. assert (K := keep_run tmo evs U udp0 a). unfold final, trace in *. destruct (udp_run tmo evs udp0) as (st, o). apply K. right. eauto. Qed.
Example ex_kept : let evs := [UPoll [] [] (Some (7, [1])) (N.to_nat 9096) 0 (Some 9); TSend 0 true; TStop 0; TNotice 0; UPoll [true] [] None (N.to_nat 9096) 1000000000 (Some 9)] in
  Forall upstream_up evs /\ In (OIn 7 [1]) (trace 60000 evs) /\ length (u_sess (final 60000 evs)) = 1%nat /\ forall t, In t (u_tasks (final 60000 evs)) -> t_life t = Ended.
Proof. cbn. split; [repeat constructor; discriminate|]. split; [tauto|]. split; [reflexivity|]. intros t [<-|[]]. reflexivity. Qed.

(* a history with two clients: each gets the reply of its own session *)
Example ex_two : let tr := trace 60000 [UPoll [] [] (Some (1, [10])) (N.to_nat 9096) 0 (Some 9); UPoll [] [] (Some (2, [20])) (N.to_nat 9096) 5 (Some 9); TSend 1 true; TSend 0 true; TReply 1 9 [21]; TReply 0 9 [11];
    UPoll [true; true] [] (Some (1, [12])) (N.to_nat 9096) 10 (Some 9); UPoll [] [true] None (N.to_nat 9096) 11 None; TTake 0; TSend 0 true] in
  to_clients tr = [([21], 2); ([11], 1)] /\ went_up 1 [10] tr = 1%nat /\ went_up 1 [12] tr = 1%nat /\ went_up 2 [20] tr = 1%nat /\ went_up 2 [10] tr = 0%nat.
Proof. vm_compute. repeat split. Qed.
(* the hypotheses of C41_goes_up and of C73_new_session_partial are met *)
Example ex_goes_up : let st := final 60000 [UPoll [] [] (Some (1, [10])) (N.to_nat 9096) 0 (Some 9); TSend 0 true; TReply 0 9 [11]; UPoll [true] [] None (N.to_nat 9096) 5 None] in
  u_sendc st = [] /\ lookup N.eqb 1 (u_sess st) = Some (USess 0 0) /\ 70 - us_last (USess 0 0) <= 60000 /\ nth_error (u_tasks st) 0 = Some (UTask 1 9 [] [] Running).
Proof. vm_compute. repeat split; discriminate. Qed.
(* the hypothesis of C41_none_lost: a datagram that the queue of the session did not take, and one of another client *)
Example ex_none_lost : let evs := [UPoll [] [] (Some (1, [10])) (N.to_nat 9096) 0 (Some 9); UPoll [] [] (Some (1, [12])) (N.to_nat 9096) 5 (Some 9); UPoll [] [false] (Some (2, [20])) (N.to_nat 9096) 6 (Some 9)] in
  Forall keeps_going evs /\ came 1 [12] (trace 60000 evs) = 1%nat /\ went_up 1 [12] (trace 60000 evs) = 0%nat /\
  went_up 1 [12] (trace 60000 (evs ++ [UPoll [] [true] None 0 7 None; TSend 0 true; TTake 0; TSend 0 true])) = 1%nat.
Proof. split; [repeat constructor|]. vm_compute. repeat split. Qed.
Example ex_new_session : let st := final 60000 [UPoll [] [] (Some (1, [10])) (N.to_nat 9096) 0 (Some 9); TSend 0 false; TNotice 0; UPoll [true] [] None (N.to_nat 9096) 5 None] in
  exists s, lookup N.eqb 1 (u_sess st) = Some s /\ 60001 > us_last s + 60000.
Proof. eexists. split; [reflexivity|]. reflexivity. Qed.

(* ---- what holds of C74, C75 and C76 ---- *)
(* C74, the part that holds: a datagram with content that a client is given was received
   by a session opened for that very client, and is what that session received, cut at
   9096 bytes; when only upstreams write to the sessions' sockets, it came from the
   upstream of the session. *)
Theorem C74_only_replies_partial tmo evs d a : let tr := trace tmo evs in
  d <> [] -> In (OClient d a) tr ->
  exists i src x r, In (OReply i a src x) tr /\ d = firstn (N.to_nat 9096) x /\ In (OOpen i a r) tr /\
    ((forall j b s y u, In (OReply j b s y) tr -> In (OOpen j b u) tr -> s = u) -> src = r).
Proof.
  intros tr Hd H. assert (I := reach tmo evs). fold tr in I.
  assert (F : In (d, a) (for_clients tr)).
  { rewrite <- (inv_items _ _ I). apply in_app_iff. left. apply in_flat_map. exists (OClient d a). split; [exact H|left; reflexivity]. }
  apply in_flat_map in F as (o & Ho & F).
  destruct o as [| | |i a' src x|i a'| |]; cbn [In] in F; try (destruct F; fail); destruct F as [F|[]]; injection F as F1 F2.
  - subst a'. destruct (inv_use _ _ I _ Ho) as (r & R). exists i, src, x, r.
    split; [exact Ho|]. split; [now symmetry|]. split; [exact R|]. intros Only. exact (Only _ _ _ _ _ Ho R).
  - congruence.
Qed.
Example ex_only_replies : let tr := trace 60000 [UPoll [] [] (Some (1, [10])) (N.to_nat 9096) 0 (Some 9); TSend 0 true; TReply 0 9 [11]; UPoll [true] [] None (N.to_nat 9096) 5 None] in
  In (OClient [11] 1) tr /\ (forall j b s y u, In (OReply j b s y) tr -> In (OOpen j b u) tr -> s = u).
Proof.
  cbn. split; [tauto|]. intros j b s y u H1 H2.
  repeat (destruct H1 as [H1|H1]; [try discriminate|]); [|destruct H1]. injection H1 as _ _ <- _.
  repeat (destruct H2 as [H2|H2]; [try discriminate|]); [|destruct H2]. now injection H2.
Qed.

(* C76, the part that holds: as long as no session has ended and no reply is longer than
   9096 bytes, what was given to the operating system for the clients, together with what
   waits, is the list of all replies in the order in which the sessions got them, each
   unchanged and for its own client. *)
Definition replies (tr : list uout) : list item :=
  flat_map (fun o => match o with OReply _ a _ d => [(d, a)] | _ => [] end) tr.
Theorem C76_replies_partial tmo evs : let tr := trace tmo evs in
  (forall i a, ~ In (OEnd i a) tr) -> (forall i a src d, In (OReply i a src d) tr -> nlen d <= 9096) ->
  exists waiting, replies tr = to_clients tr ++ waiting.
Proof.
  intros tr He Hs. destruct (C41_replies tmo evs) as (w & W). fold tr in W. exists w. rewrite <- W.
  clear W. induction tr as [|o tr IH]; [reflexivity|].
  assert (IH' : replies tr = for_clients tr).
  { apply IH; [intros i a X; exact (He i a (or_intror X))|intros i a src d X; exact (Hs i a src d (or_intror X))]. }
  unfold replies, for_clients in *. cbn [flat_map]. rewrite IH'. f_equal.
  destruct o as [| | |i a src d|i a| |]; try reflexivity.
  - rewrite firstn_all2; [reflexivity|]. assert (L := Hs i a src d (or_introl eq_refl)). unfold nlen in L. lia.
  - destruct (He i a (or_introl eq_refl)).
Qed.
Example ex_replies : let tr := trace 60000 [UPoll [] [] (Some (1, [10])) (N.to_nat 9096) 0 (Some 9); UPoll [] [] (Some (2, [20])) (N.to_nat 9096) 5 (Some 9); TSend 1 true; TReply 1 9 [21]; TReply 0 9 []; TReply 0 9 [11]; UPoll [true; true] [] None (N.to_nat 9096) 5 None] in
  replies tr = [([21], 2); ([], 1); ([11], 1)] /\ to_clients tr = [([21], 2); ([], 1)] /\ (forall i a, ~ In (OEnd i a) tr) /\ (forall i a src d, In (OReply i a src d) tr -> nlen d <= 9096).
Proof.
  cbn. split; [reflexivity|]. split; [reflexivity|]. split.
  - intros i a H. repeat (destruct H as [H|H]; [discriminate|]). exact H.
  - intros i a src d H. repeat (destruct H as [H|H]; [try discriminate; injection H as _ _ _ <-; cbv; discriminate|]). destruct H.
Qed.

(* C75, the part that holds: the table has at most one entry for each client, and none
   for anybody who sent no datagram; an entry belongs to a session opened for its client. *)
Definition table_ok (st : ust) (tr : list uout) : Prop :=
  NoDup (map fst (u_sess st)) /\ forall a, In a (map fst (u_sess st)) -> exists d, In (OIn a d) tr.
Lemma keys_ins (a b : uaddr) (s : usess) m : In b (map fst (insert N.eqb a s m)) <-> b = a \/ In b (map fst m).
Proof.
  induction m as [|[k v] m IH]; cbn [insert map fst In].
  - cbn [In map fst]. intuition congruence.
  - destruct (a =? k) eqn:E; cbn [map fst In].
    + apply N.eqb_eq in E. subst k. intuition congruence.
    + rewrite IH. intuition congruence.
Qed.
Lemma nodup_ins (a : uaddr) (s : usess) m : NoDup (map fst m) -> NoDup (map fst (insert N.eqb a s m)).
Proof.
  induction m as [|[k v] m IH]; cbn [insert map fst]; intros H.
  - constructor; [intros []|constructor].
  - apply NoDup_cons_iff in H as (H1 & H2). destruct (a =? k) eqn:E; cbn [map fst].
    + apply N.eqb_eq in E. subst k. apply NoDup_cons; assumption.
    + apply NoDup_cons; [|exact (IH H2)]. rewrite keys_ins. apply N.eqb_neq in E. intros [->|X]; [congruence|exact (H1 X)].
Qed.
Lemma keys_rem (a b : uaddr) (m : list (uaddr * usess)) : In b (map fst (remove N.eqb a m)) -> In b (map fst m).
Proof.
  induction m as [|[k v] m IH]; cbn [remove map fst In]; [auto|]. destruct (a =? k); cbn [map fst In]; intuition.
Qed.
Lemma nodup_rem (a : uaddr) (m : list (uaddr * usess)) : NoDup (map fst m) -> NoDup (map fst (remove N.eqb a m)).
Proof.
  induction m as [|[k v] m IH]; cbn [remove map fst]; intros H; [exact H|].
  apply NoDup_cons_iff in H as (H1 & H2). destruct (a =? k); cbn [map fst]; [exact (IH H2)|].
  apply NoDup_cons; [|exact (IH H2)]. intros X. apply keys_rem in X. exact (H1 X).
Qed.
Lemma table_same st st' tr o : u_sess st' = u_sess st -> table_ok st tr -> table_ok st' (tr ++ o).
Proof.
  intros E (A & B). split; rewrite E; [exact A|]. intros a H. destruct (B a H) as (d & D). exists d. apply in_app_iff. now left.
Qed.
Lemma table_step tmo ev st tr : table_ok st tr -> let (st', o) := udp_step tmo ev st in table_ok st' (tr ++ o).
Proof.
  intro T. destruct ev as [wr rs rd cap now up|i|i ok|i src d|i|i]; cbn [udp_step].
  2: destruct (nth_error (u_tasks st) i) as [[o r [|d ch] sq []]|]; (apply (table_same st); [reflexivity|exact T]).
  2: destruct (nth_error (u_tasks st) i) as [[o r ch [|d sq] []]|]; try destruct ok; (apply (table_same st); [reflexivity|exact T]).
  2: destruct (nth_error (u_tasks st) i) as [[o r ch sq []]|]; try destruct (length (u_recv st) <? chan_cap)%nat; (apply (table_same st); [reflexivity|exact T]).
  2: destruct (nth_error (u_tasks st) i) as [[o r ch sq []]|]; (apply (table_same st); [reflexivity|exact T]).
  2: destruct (nth_error (u_tasks st) i) as [[o r ch sq []]|]; try destruct (length (u_recv st) <? chan_cap)%nat; (apply (table_same st); [reflexivity|exact T]).
  unfold udp_poll. destruct (write_out wr (u_cache st ++ u_recv st)) as [[o c] ok].
  destruct ok; [|apply (table_same st); [reflexivity|exact T]].
  destruct (hand_out rs (u_sendc st) (u_sess st) (u_tasks st)) as (sendc, ts).
  destruct rd as [(a', d)|]; [|apply (table_same st); [reflexivity|exact T]].
  destruct (process_data tmo now up (firstn cap d) a' (USt [] c sendc (u_sess st) ts)) as (st', o') eqn:P.
  assert (SE : u_sess st' = u_sess st \/ u_sess st' = remove N.eqb a' (u_sess st) \/ exists s, u_sess st' = insert N.eqb a' s (u_sess st) \/ u_sess st' = insert N.eqb a' s (remove N.eqb a' (u_sess st))).
  { unfold process_data in P. cbn [u_sess u_tasks u_sendc u_recv u_cache] in P. destruct (lookup N.eqb a' (u_sess st)); [destruct (now - us_last u <=? tmo); [|destruct up]|destruct up]; injection P as <- <-; cbn [u_sess]; eauto. }
  destruct T as (A & B).
  assert (K : forall b, In b (map fst (u_sess st)) \/ b = a' -> exists x, In (OIn b x) (tr ++ o ++ OIn a' (firstn cap d) :: o')).
  { intros b [H| ->]; [destruct (B b H) as (x & X); exists x; apply in_app_iff; now left|].
    exists (firstn cap d). rewrite !in_app_iff. right. right. left. reflexivity. }
  destruct SE as [E|[E|(s & [E|E])]]; split; rewrite E.
  - exact A.
  - intros b H. apply K. now left.
  - apply nodup_rem, A.
  - intros b H. apply K. left. exact (keys_rem _ _ _ H).
  - apply nodup_ins, A.
  - intros b H. apply keys_ins in H as [->|H]; apply K; auto.
  - apply nodup_ins, nodup_rem, A.
  - intros b H. apply keys_ins in H as [->|H]; apply K; [now right|left; exact (keys_rem _ _ _ H)].
Qed.
Lemma table_run tmo evs : forall st tr, table_ok st tr -> let (st', o) := udp_run tmo evs st in table_ok st' (tr ++ o).
Proof.
  induction evs as [|e evs IH]; intros st tr T; cbn [udp_run]; [rewrite app_nil_r; exact T|].
  assert (Q := table_step tmo e st tr T). destruct (udp_step tmo e st) as (st1, o1). specialize (IH st1 _ Q).
  destruct (udp_run tmo evs st1) as (st2, o2). rewrite app_assoc. exact IH.
Qed.
Theorem C75_one_per_client_partial tmo evs clients : let tr := trace tmo evs in
  (forall a d, In (OIn a d) tr -> In a clients) ->
  (length (u_sess (final tmo evs)) <= length clients)%nat /\
  forall a s, In (a, s) (u_sess (final tmo evs)) ->
    (exists d, In (OIn a d) tr) /\ (exists r, In (OOpen (us_task s) a r) tr) /\ lookup N.eqb a (u_sess (final tmo evs)) = Some s.
Proof.
  intros tr Hc. assert (T := table_run tmo evs udp0 []). assert (I := reach tmo evs). fold tr in I.
  unfold tr, final, trace in *. destruct (udp_run tmo evs udp0) as (st, o). cbn [fst snd app] in *.
  destruct T as (A & B). { split; [constructor|intros a []]. } split.
  - rewrite <- (map_length fst (u_sess st)). apply NoDup_incl_length; [exact A|]. intros a H. destruct (B a H) as (d & D). exact (Hc _ _ D).
  - intros a s H. assert (L : lookup N.eqb a (u_sess st) = Some s).
    { clear - A H. induction (u_sess st) as [|[k v] m IH]; [destruct H|]. cbn [map fst] in A. apply NoDup_cons_iff in A as (A1 & A2). cbn [lookup].
      destruct H as [H|H]; [injection H as -> ->; now rewrite N.eqb_refl|].
      destruct (a =? k) eqn:E; [|exact (IH A2 H)]. apply N.eqb_eq in E. subst k. destruct A1. apply in_map_iff. exists (a, s). auto. }
    split; [apply B, in_map_iff; exists (a, s); auto|]. split; [|exact L].
    destruct (inv_wf _ _ I _ _ L) as (t & E & O). exists (t_remote t). apply (inv_open _ _ I). exists t. auto.
Qed.
Example ex_one : let evs := [UPoll [] [] (Some (1, [10])) (N.to_nat 9096) 0 (Some 9); UPoll [] [] (Some (1, [12])) (N.to_nat 9096) 70000 (Some 9); UPoll [] [] (Some (2, [20])) (N.to_nat 9096) 70001 (Some 9); UPoll [] [] (Some (3, [20])) (N.to_nat 9096) 70002 None] in
  map fst (u_sess (final 60000 evs)) = [1; 2] /\ length (u_tasks (final 60000 evs)) = 3%nat.
Proof. vm_compute. repeat split. Qed.

Print Assumptions C74_only_replies_partial.
Print Assumptions C75_one_per_client_partial.
Print Assumptions C76_replies_partial.
Print Assumptions C41_replies.
Print Assumptions C41_flushed.
Print Assumptions C41_own_session.
Print Assumptions C41_upstream.
Print Assumptions C41_goes_up.
Print Assumptions C41_none_lost.
Print Assumptions C76_spurious_refuted.
Print Assumptions C76_truncated_refuted.
Print Assumptions C73_new_session_partial.
Print Assumptions C73_black_hole_refuted.
Print Assumptions C74_any_source_refuted.
Print Assumptions C75_kept_for_ever_refuted.
