From Coq Require Import String.
From Verif Require Import Base Text ProtModel ProtSpec ProtProofs ProtStream CsModel CsSpec CsProofs
  CsRoute CsOwn CcModel CcSpec CcProofs CcCreate TunSpec TunServer TunClient TunProofs TunMore TunFlow
  ReModel ReSpec.
Open Scope N_scope.

Lemma kfit_end es : forall st, kfit st -> Forall kev_ok es -> kfit (fst (krun st es)).
Proof.
  induction es as [|e es IH]; intros st H He; [exact H|].
  apply Forall_cons_iff in He as [He Hes]. rewrite krun_cons. cbn [fst]. apply IH; [|exact Hes].
  exact (proj1 (kfit_step st e H He)).
Qed.
Lemma kfit_again c ms st : kfit st -> kfit (kagain c ms st).
Proof.
  intros (A & B & C & D & E & F & G). unfold kfit. cbn.
  repeat split; try assumption; destruct (snd (hello c ms)); discriminate.
Qed.
Lemma sessions_start c ms ess k0 : sessions c ms ess k0 -> starts c ms k0.
Proof. intros []; repeat split. Qed.
Lemma sessions_fit c ms ess k0 : sessions c ms ess k0 -> Forall (Forall kev_ok) ess -> kfit k0.
Proof.
  induction 1 as [|ess k0 es st tr _ IH Hr _]; intros He; [apply kfit_init|].
  apply Forall_app in He as [He1 He2]. apply Forall_cons_iff in He2 as [He2 _].
  apply kfit_again. pose proof (kfit_end es k0 (IH He1) He2) as K. rewrite Hr in K. exact K.
Qed.
Lemma retunnel_link c ms ess k0 kes es kst ktr st tr :
  retunnel c ms ess k0 kes es kst ktr st tr -> link c ms k0 kes es kst ktr st tr.
Proof.
  intros [H1 H2 H3 H4 H5 H6 H7 [H8 H9] H10]. constructor; try assumption.
  - exact (sessions_start _ _ _ _ H1).
  - exact (sessions_fit _ _ _ _ H1 H8).
Qed.

(* ---- every byte of a local service is sent once, in order, over all sessions --- *)
Lemma sessions_stuck c ms ess k0 : sessions c ms ess k0 -> stuck_close k0.
Proof. intros H. exact (starts_stuck c ms k0 (sessions_start _ _ _ _ H)). Qed.

(* ---- a byte stream that is an initial part of good frames never fails ----------- *)
Lemma good_step fs b x : Forall fits fs -> wire fs = b ++ x ->
  decode_frame b = DWait \/
  exists f fs' z, fs = f :: fs' /\ decode_frame b = DFrame (public f) z /\ wire fs' = z ++ x.
Proof.
  intros Hf Hw. destruct Hf as [|f fs Hf Hfs].
  - left. destruct b; [reflexivity|discriminate].
  - rewrite wire_cons in Hw.
    destruct (N.leb_spec (nlen (fst (encode f))) (nlen b)) as [Hle|Hgt].
    + right. destruct (app_prefix_split _ _ _ _ Hw) as (z & -> & Hw'); [unfold nlen in Hle; lia|].
      exists f, fs, z. split; [reflexivity|]. split; [apply roundtrip; exact Hf|exact Hw'].
    + left. symmetry in Hw. destruct (app_prefix_split _ _ _ _ Hw) as (z & E & Ez); [unfold nlen in Hgt; lia|].
      refine (decode_incomplete f b z Hf E _). intros ->. rewrite app_nil_r in E. rewrite E in Hgt. lia.
Qed.
Lemma good_rest b ds r : dsteps b ds r -> forall fs x, Forall fits fs -> wire fs = b ++ x ->
  exists fs', fs = firstn (length ds) fs ++ fs' /\ wire fs' = r ++ x.
Proof.
  induction 1 as [b|b f b1 ds r Hd _ IH]; intros fs x Hf Hw.
  - exists fs. split; [reflexivity|exact Hw].
  - destruct (good_step fs b x Hf Hw) as [E|(g & fs' & z & -> & E & Hw')]; [congruence|].
    rewrite E in Hd. injection Hd as _ <-. apply Forall_cons_iff in Hf as [_ Hf].
    destruct (IH fs' x Hf Hw') as (fs2 & E2 & Hw2). exists fs2. split; [|exact Hw2].
    cbn [length firstn app]. f_equal. exact E2.
Qed.
Lemma good_next fs b ds r : Forall fits fs -> prefix b (wire fs) -> dsteps b ds r ->
  decode_frame r = DWait \/ exists f z, In f fs /\ decode_frame r = DFrame (public f) z.
Proof.
  intros Hf [x Hw] Hd. destruct (good_rest b ds r Hd fs x Hf Hw) as (fs' & E & Hw').
  assert (Hf' : Forall fits fs') by (rewrite E in Hf; apply Forall_app in Hf; apply Hf).
  destruct (good_step fs' r x Hf' Hw') as [D|(f & fs2 & z & -> & D & _)]; [left; exact D|].
  right. exists f, z. split; [rewrite E; apply in_app_iff; right; left; reflexivity|exact D].
Qed.

(* ---- no tokens or mappings come from a server ----------------------------------- *)
Definition humble (f : frame) : Prop := match f with FToken _ _ | FMapping _ _ => False | _ => True end.
Lemma humble_step c st e : Forall humble (s_out st) ->
  Forall humble (s_out (fst (step c st e))) /\ Forall humble (push1 c st e).
Proof.
  intros H.
  assert (Hn : Forall humble []) by constructor.
  assert (Hsame : forall st', s_out st' = s_out st -> Forall humble (s_out st')) by (intros st' ->; exact H).
  destruct e as [s v|s d|s r|h|h| | |b| |n| |]; cbn [step push1].
  - split; [|exact Hn]. destruct (visit_domain (s_maps st) v) as [d|]; [|exact H].
    destruct (nlen (s_work st) <? work_cap); exact H.
  - split; [|exact Hn]. destruct (is_open s st && _); [|exact H]. apply Forall_snoc; [exact H|exact I].
  - split; [|exact Hn]. destruct (nlen (s_out st) <? out_cap); [|exact H]. apply Forall_snoc; [exact H|exact I].
  - split; [|exact Hn]. destruct (s_box st h); [exact H|]. destruct (gone h st); exact H.
  - split; [exact H|exact Hn].
  - destruct (s_phase st); try (split; [exact H|exact Hn]).
    destruct (s_work st) as [|[[s0 d0] h0] w]; try (split; [exact H|exact Hn]).
    split; [exact H|repeat constructor].
  - destruct (s_phase st); try (split; [exact H|exact Hn]).
    destruct (s_out st) as [|f o] eqn:Eo; try (split; [cbn [fst]; rewrite Eo; exact H|exact Hn]).
    apply Forall_cons_iff in H as [H1 H2]. split; [exact H2|constructor; [exact H1|constructor]].
  - split; [|exact Hn]. destruct (s_phase st); try exact H. destruct b; [|exact H].
    apply Hsame; apply closed_maps.
  - split; [|exact Hn]. destruct (s_phase st); try exact H. apply Hsame; apply closed_maps.
  - split; [|exact Hn]. destruct (s_phase st); try exact H. destruct (s_wbuf st) as [|x w]; [exact H|].
    cbn [s_wbuf set_wbuf]. destruct (skipn _ (x :: w)), (s_shut st); exact H.
  - split; [|exact Hn]. destruct (s_phase st); try exact H. destruct (s_wbuf st) as [|x w]; exact H.
  - destruct (s_phase st) as [| |h f|r]; try (split; [exact H|exact Hn]).
    2:{ split; [|exact Hn]. apply Hsame; apply deliver_maps. }
    destruct (decode_frame (s_rbuf st)) as [|f rest|e rest|]; try (split; [exact H|exact Hn]).
    split; [|destruct (refuses c st f); repeat constructor].
    assert (Hd : forall h g, Forall humble (s_out (fst (deliver h g (set_rbuf rest st))))).
    { intros h g. pose proof (deliver_maps h g (set_rbuf rest st)) as (_ & _ & D1 & D2 & _).
      apply Hsame; assumption. }
    unfold handle. destruct f as [s d|s r|s d|s ms|u p]; cbn [s_verify set_rbuf];
      destruct (s_verify st); cbn [negb andb]; try exact H;
      try (cbn [s_map set_rbuf]; destruct (lookup N.eqb s (s_map st)) as [h|]; [|exact H];
           match goal with |- context [deliver h ?g ?z] => specialize (Hd h g); destruct (deliver h g z) end;
           exact Hd).
    destruct (check_succ c u p); exact H.
Qed.
Lemma humble_pushed c es : forall st, Forall humble (s_out st) -> Forall humble (pushed c st es).
Proof.
  induction es as [|e es IH]; intros st H; [constructor|]. destruct (humble_step c st e H) as [A B].
  cbn [pushed]. apply Forall_app. split; [exact B|apply IH; exact A].
Qed.

(* ---- between honest peers a connection ends only when it is closed --------------- *)
Lemma kend_step st e : (forall r, k_phase st = KEnd r -> r = KClosed) ->
  (k_phase st = KDecode -> decode_frame (k_rbuf st) = DWait \/
     exists f z, humble f /\ decode_frame (k_rbuf st) = DFrame f z) ->
  forall r, k_phase (fst (kstep st e)) = KEnd r ->
  r = KClosed /\ (k_phase st = KEnd KClosed \/ e = KRead [] \/ e = KReadErr).
Proof.
  intros He Hd.
  assert (Hc : k_phase (fst (ktunnel_closed st)) = KEnd KClosed).
  { unfold ktunnel_closed. destruct (ksay_bye (k_map st) st). reflexivity. }
  assert (Hs : forall st' r, k_phase st' = k_phase st -> k_phase st' = KEnd r ->
     r = KClosed /\ (k_phase st = KEnd KClosed \/ e = KRead [] \/ e = KReadErr)).
  { intros st' r E1 E2. rewrite E1 in E2. pose proof (He r E2) as ->. split; [reflexivity|left; exact E2]. }
  destruct e as [s|s d|s rr|h|h|h| | |b| |n| |]; cbn [kstep]; intros r H.
  - destruct (_ <? _); eapply Hs; try exact H; reflexivity.
  - destruct (_ <? _); eapply Hs; try exact H; reflexivity.
  - destruct (_ <? _); eapply Hs; try exact H; reflexivity.
  - destruct (k_box st h); [|destruct (kgone h st)]; eapply Hs; try exact H; reflexivity.
  - eapply Hs; try exact H; reflexivity.
  - destruct (lookup _ _ _); [destruct (_ <? _)|]; eapply Hs; try exact H; reflexivity.
  - destruct (k_phase st) eqn:Hp; try (eapply Hs; [|exact H]; exact Hp).
    destruct (k_work st) as [|[[? ?] ?] ?]; cbn in H; rewrite ?Hp in H; discriminate.
  - destruct (k_phase st) eqn:Hp; try (eapply Hs; [|exact H]; exact Hp).
    destruct (k_out st); cbn in H; rewrite ?Hp in H; discriminate.
  - destruct (k_phase st) eqn:Hp; try (eapply Hs; [|exact H]; destruct b; exact Hp).
    destruct b; [|cbn in H; discriminate]. rewrite Hc in H. injection H as <-. split; [reflexivity|right; left; reflexivity].
  - destruct (k_phase st) eqn:Hp; try (eapply Hs; [|exact H]; exact Hp).
    rewrite Hc in H. injection H as <-. split; [reflexivity|right; right; reflexivity].
  - destruct (k_phase st) eqn:Hp; try (eapply Hs; [|exact H]; exact Hp).
    destruct (k_wbuf st); cbn in H; rewrite ?Hp in H; discriminate.
  - destruct (k_phase st) eqn:Hp; try (eapply Hs; [|exact H]; exact Hp).
    destruct (k_wbuf st); cbn in H; rewrite ?Hp in H; discriminate.
  - destruct (k_phase st) as [| |f0|x] eqn:Hp; try (eapply Hs; [|exact H]; exact Hp).
    2:{ destruct (_ <? _); cbn in H; rewrite ?Hp in H; discriminate. }
    destruct (Hd eq_refl) as [E|(f & z & Hh & E)]; rewrite E in H; [cbn in H; discriminate|].
    assert (T : forall h g, k_phase (fst (ktry_send h g (kset_rbuf z st))) = KDecode).
    { intros h g. unfold ktry_send. destruct (kgone _ _ || _); exact Hp. }
    exfalso. destruct f as [s dom|s rr|s d|s ms|u p]; cbn [khandle humble] in *; try contradiction.
    + match type of H with context [choose ?a ?b] => destruct (choose a b) as [m|] end.
      * destruct (is_proxy m); [|destruct (m_local m)]; cbn in H; rewrite Hp in H; discriminate.
      * destruct (_ <? _); cbn in H; rewrite ?Hp in H; discriminate.
    + destruct (s =? 0); [cbn in H; rewrite Hp in H; discriminate|].
      destruct (lookup _ _ _) as [h|]; [|cbn in H; rewrite Hp in H; discriminate].
      specialize (T h (FClose s rr)). destruct (ktry_send _ _ _). cbn [fst] in *. congruence.
    + destruct (lookup _ _ _) as [h|]; [|cbn in H; rewrite Hp in H; discriminate].
      specialize (T h (FData s d)). destruct (ktry_send _ _ _). cbn [fst] in *. congruence.
Qed.

Lemma kbytes_read_app' a b : kbytes_read (a ++ b) = kbytes_read a ++ kbytes_read b.
Proof. apply flat_map_app. Qed.

Lemma send_step c st e : (forall r, s_phase st = PEnd r -> r = FinClosed) ->
  e <> EvWriteErr -> s_shut st = false -> s_shut (fst (step c st e)) = false ->
  (s_phase st = PDecode -> decode_frame (s_rbuf st) = DWait \/ exists f z, decode_frame (s_rbuf st) = DFrame f z) ->
  forall r, s_phase (fst (step c st e)) = PEnd r ->
  r = FinClosed /\ (s_phase st = PEnd FinClosed \/ e = EvRead [] \/ e = EvReadErr).
Proof.
  intros He Hw Hsh Hsh' Hd.
  assert (Hc : s_phase (fst (tunnel_closed st)) = PEnd FinClosed).
  { unfold tunnel_closed. destruct (say_bye (s_map st) st). reflexivity. }
  assert (Hs : forall st' r, s_phase st' = s_phase st -> s_phase st' = PEnd r ->
     r = FinClosed /\ (s_phase st = PEnd FinClosed \/ e = EvRead [] \/ e = EvReadErr)).
  { intros st' r E1 E2. rewrite E1 in E2. pose proof (He r E2) as ->. split; [reflexivity|left; exact E2]. }
  assert (Ha : forall st', s_shut st' = false -> s_phase (after_select st') = PDecode).
  { intros st' E. unfold after_select. cbn. rewrite E. reflexivity. }
  destruct e as [s v|s d|s rr|k|k| | |b| |n| |]; cbn [step] in *; intros r H.
  - destruct (visit_domain _ v); [destruct (_ <? _)|]; eapply Hs; try exact H; reflexivity.
  - destruct (is_open s st && _); eapply Hs; try exact H; reflexivity.
  - destruct (_ <? _); eapply Hs; try exact H; reflexivity.
  - destruct (s_box st k); [|destruct (gone k st)]; eapply Hs; try exact H; reflexivity.
  - eapply Hs; try exact H; reflexivity.
  - destruct (s_phase st) eqn:Hp; try (eapply Hs; [|exact H]; exact Hp).
    destruct (s_work st) as [|[[? ?] ?] ?]; [cbn in H; rewrite ?Hp in H; discriminate|].
    cbn [fst] in H. rewrite Ha in H by exact Hsh. discriminate.
  - destruct (s_phase st) eqn:Hp; try (eapply Hs; [|exact H]; exact Hp).
    destruct (s_out st); [cbn in H; rewrite ?Hp in H; discriminate|].
    cbn [fst] in H. rewrite Ha in H by exact Hsh. discriminate.
  - destruct (s_phase st) eqn:Hp; try (eapply Hs; [|exact H]; destruct b; exact Hp).
    destruct b; [rewrite Hc in H; injection H as <-; split; [reflexivity|right; left; reflexivity]|].
    cbn [fst] in H. rewrite Ha in H by exact Hsh. discriminate.
  - destruct (s_phase st) eqn:Hp; try (eapply Hs; [|exact H]; exact Hp).
    rewrite Hc in H. injection H as <-. split; [reflexivity|right; right; reflexivity].
  - destruct (s_phase st) eqn:Hp; try (eapply Hs; [|exact H]; exact Hp).
    destruct (s_wbuf st) as [|x w]; [cbn in H; rewrite ?Hp in H; discriminate|]. cbv zeta in H.
    rewrite Hsh in H. match type of H with context [s_wbuf ?x] => destruct (s_wbuf x) end;
      cbn [fst] in H; rewrite Ha in H by exact Hsh; discriminate.
  - congruence.
  - destruct (s_phase st) as [| |hb fb|rb] eqn:Hp; try (eapply Hs; [|exact H]; exact Hp).
    2:{ unfold deliver in H. destruct (gone hb st); [|destruct (_ <? _)]; cbn in H; discriminate. }
    destruct (Hd eq_refl) as [E|(g & rest & E)]; rewrite E in H, Hsh'; [cbn in H; discriminate|].
    exfalso.
    assert (Dl : forall h g, forall r, s_phase (fst (deliver h g (set_rbuf rest st))) <> PEnd r).
    { intros h g0 r0. unfold deliver. destruct (gone h _); [|destruct (_ <? _)]; cbn; discriminate. }
    unfold handle in H, Hsh'. destruct g as [s d|s rr|s d|s ms|u p]; cbn [s_verify set_rbuf] in *;
      destruct (s_verify st); cbn [negb andb] in *;
      try (cbn in Hsh'; discriminate); try (cbn in H; rewrite ?Hp in H; discriminate);
      try (cbn [s_map set_rbuf] in *; destruct (lookup N.eqb s (s_map st)) as [h|]; [|cbn in H; rewrite ?Hp in H; discriminate];
           match type of H with context [deliver h ?g ?z] => specialize (Dl h g r); destruct (deliver h g z) end;
           exact (Dl H)).
    destruct (check_succ c u p); [cbn in H; rewrite ?Hp in H; discriminate|cbn in Hsh'; discriminate].
Qed.

Section Honest2.
Context (c : creds) (ms : list mapping) (k0 : kst) (kes : list kev) (es : list ev)
  (kst0 : kst) (ktr : list keff) (st : sst) (tr : list eff)
  (T : link c ms k0 kes es kst0 ktr st tr).

Lemma client_ends e1 e2 : kes = e1 ++ e2 -> forall r, k_phase (fst (krun k0 e1)) = KEnd r ->
  r = KClosed /\ (In (KRead []) e1 \/ In KReadErr e1).
Proof.
  revert e2. induction e1 as [|e e1 IH] using rev_ind; intros e2 E r H.
  - exfalso. cbn in H. destruct (l_start _ _ _ _ _ _ _ _ _ T) as (_ & _ & _ & _ & Hp).
    destruct (l_maps _ _ _ _ _ _ _ _ _ T) as (Hm & _).
    rewrite Hp, (hello_greeting c ms (l_creds _ _ _ _ _ _ _ _ _ T) Hm) in H. discriminate.
  - rewrite <- app_assoc in E. cbn [app] in E. specialize (IH (e :: e2) E).
    rewrite krun_app, krun_cons in H. cbn [fst krun] in H.
    destruct (krun k0 e1) as [st1 tr1] eqn:E1. cbn [fst] in *.
    assert (K : forall r, k_phase st1 = KEnd r -> r = KClosed) by (intros r0 H0; exact (proj1 (IH r0 H0))).
    destruct (kend_step st1 e K) with (r := r) as [-> C]; [|exact H|].
    + intros Hp.
      assert (G : kph st1 tr1).
      { revert E1. apply (krun_reach kph); [|intros; apply kph_step; assumption].
        destruct (l_start _ _ _ _ _ _ _ _ _ T) as (_ & Hr & _).
        split; [intros _; rewrite Hr; reflexivity|]. exists []. split; [constructor|intros _; symmetry; exact Hr]. }
      destruct G as (_ & r0 & D & Er). rewrite <- Er by (rewrite Hp; discriminate).
      assert (P : prefix (kbytes_read tr1) (wire (pushed c (s_init c) es))).
      { eapply prefix_trans; [|exact (down_wire _ _ _ _ _ _ _ _ _ T)].
        eapply prefix_trans; [|exact (l_down _ _ _ _ _ _ _ _ _ T)].
        pose proof (l_client _ _ _ _ _ _ _ _ _ T) as R. rewrite E, krun_app, E1 in R. cbn [fst snd] in R.
        injection R as _ <-. rewrite kbytes_read_app'. apply prefix_app. }
      destruct (good_next _ _ _ _ (down_fits _ _ _ _ _ _ _ _ _ T) P D) as [Dw|(f & z & Hin & Df)]; [left; exact Dw|].
      right. exists (public f), z. split; [|exact Df].
      pose proof (humble_pushed c es (s_init c) (Forall_nil _)) as Hh. rewrite Forall_forall in Hh.
      specialize (Hh f Hin). destruct f; try exact I; contradiction.
    + split; [reflexivity|]. destruct C as [C|[-> | ->]].
      * destruct (IH _ C) as [_ [I1|I1]]; [left|right]; apply in_app_iff; left; exact I1.
      * left. apply in_app_iff; right; left; reflexivity.
      * right. apply in_app_iff; right; left; reflexivity.
Qed.

Lemma shut_never e1 e2 : es = e1 ++ e2 -> s_shut (fst (run c (s_init c) e1)) = false.
Proof.
  intros E. destruct (run c (s_init c) e1) as [st1 tr1] eqn:E1.
  apply (shut_reach c e1 st1 tr1 E1). pose proof (honest_not_refused _ _ _ _ _ _ _ _ _ T) as N.
  pose proof (l_server _ _ _ _ _ _ _ _ _ T) as R. rewrite E, run_app, E1 in R. cbn [fst snd] in R.
  injection R as _ <-. rewrite refused_app in N. apply app_eq_nil in N. exact (proj1 N).
Qed.

Lemma server_ends e1 e2 : es = e1 ++ e2 -> ~ In EvWriteErr e1 -> forall r, s_phase (fst (run c (s_init c) e1)) = PEnd r ->
  r = FinClosed /\ (In (EvRead []) e1 \/ In EvReadErr e1).
Proof.
  revert e2. induction e1 as [|e e1 IH] using rev_ind; intros e2 E Hw r H.
  - discriminate.
  - pose proof (shut_never _ _ E) as Hsh'. rewrite <- app_assoc in E. cbn [app] in E. specialize (IH (e :: e2) E).
    pose proof (shut_never _ _ E) as Hsh.
    rewrite run_app, run_cons in H, Hsh'. cbn [fst run] in H, Hsh'.
    destruct (run c (s_init c) e1) as [st1 tr1] eqn:E1. cbn [fst] in *.
    assert (Hw1 : ~ In EvWriteErr e1) by (intros Hi; apply Hw, in_app_iff; left; exact Hi).
    assert (Hw2 : e <> EvWriteErr) by (intros ->; apply Hw, in_app_iff; right; left; reflexivity).
    specialize (IH Hw1).
    assert (K : forall r, s_phase st1 = PEnd r -> r = FinClosed) by (intros r0 H0; exact (proj1 (IH r0 H0))).
    destruct (send_step c st1 e K Hw2 Hsh Hsh') with (r := r) as [-> C]; [|exact H|].
    + intros Hp. destruct (route_phase_reach c e1 st1 tr1 E1) as [_ (_ & _ & r0 & D & Er)].
      rewrite <- (Er Hsh) by (rewrite Hp; discriminate).
      assert (P : prefix (bytes_read tr1) (wire (greeting c ms ++ kpushed k0 kes))).
      { eapply prefix_trans; [|exact (up_wire _ _ _ _ _ _ _ _ _ T)].
        eapply prefix_trans; [|exact (l_up _ _ _ _ _ _ _ _ _ T)].
        pose proof (l_server _ _ _ _ _ _ _ _ _ T) as R. rewrite E, run_app, E1 in R. cbn [fst snd] in R.
        injection R as _ <-. rewrite bytes_read_app. apply prefix_app. }
      destruct (good_next _ _ _ _ (up_fits _ _ _ _ _ _ _ _ _ T) P D) as [Dw|(f & z & _ & Df)]; [left; exact Dw|].
      right. exists (public f), z. exact Df.
    + split; [reflexivity|]. destruct C as [C|[-> | ->]].
      * destruct (IH _ C) as [_ [I1|I1]]; [left|right]; apply in_app_iff; left; exact I1.
      * left. apply in_app_iff; right; left; reflexivity.
      * right. apply in_app_iff; right; left; reflexivity.
Qed.
End Honest2.

(* ---- a panic ends the client for good --------------------------------------------- *)
Lemma panic_stays es : forall st, k_phase st = KEnd KPanic -> k_phase (fst (krun st es)) = KEnd KPanic.
Proof.
  induction es as [|e es IH]; intros st H; [exact H|]. rewrite krun_cons. cbn [fst]. apply IH.
  destruct e as [s|s d|s r|h|h|h| | |b| |n| |]; cbn [kstep].
  - destruct (_ <? _); exact H.
  - destruct (_ <? _); exact H.
  - destruct (_ <? _); exact H.
  - destruct (k_box st h); [|destruct (kgone h st)]; exact H.
  - exact H.
  - destruct (lookup _ _ _); [destruct (_ <? _)|]; exact H.
  - rewrite H; exact H.
  - rewrite H; exact H.
  - rewrite H; exact H.
  - rewrite H; exact H.
  - rewrite H; exact H.
  - rewrite H; exact H.
  - rewrite H; exact H.
Qed.
Lemma panic_quiet es : forall st, k_phase st = KEnd KPanic -> kwritten (snd (krun st es)) = [] /\
  kbytes_read (snd (krun st es)) = [].
Proof.
  induction es as [|e es IH]; intros st H; [split; reflexivity|]. rewrite krun_cons. cbn [snd].
  pose proof (panic_stays [e] st H) as P. rewrite krun_cons in P. cbn [fst krun] in P.
  destruct (IH _ P) as [W R]. unfold kwritten, kbytes_read in *. rewrite !flat_map_app, W, R, !app_nil_r.
  destruct e as [s|s d|s r|h|h|h| | |b| |n| |]; cbn [kstep];
    try (rewrite H); try (split; reflexivity).
  - destruct (_ <? _); split; reflexivity.
  - destruct (_ <? _); split; reflexivity.
  - destruct (_ <? _); split; reflexivity.
  - destruct (k_box st h); [|destruct (kgone h st)]; split; reflexivity.
  - destruct (lookup _ _ _); [destruct (_ <? _)|]; split; reflexivity.
Qed.

Definition blame (st : kst) (tr : list keff) : Prop :=
  k_phase st = KEnd KPanic -> (exists u p, In (FToken u p) (kdecoded tr)) \/ decode_frame (k_rbuf st) = DPanic.
Lemma ksay_bye_rbuf m : forall st, k_rbuf (fst (ksay_bye m st)) = k_rbuf st.
Proof.
  induction m as [|[s h] m IH]; intros st; [reflexivity|]. cbn [ksay_bye].
  destruct (kgone h st || _); [apply IH|].
  specialize (IH (kset_box h (k_box st h ++ [FClose s []]) st)). destruct (ksay_bye m _). exact IH.
Qed.
Lemma blame_step st tr e : blame st tr -> blame (fst (kstep st e)) (tr ++ snd (kstep st e)).
Proof.
  intros B.
  assert (Hs : forall st' o, k_phase st' = k_phase st -> k_rbuf st' = k_rbuf st -> blame st' (tr ++ o)).
  { intros st' o E1 E2 H. rewrite E1 in H. destruct (B H) as [(u & p & Hi)|Hd].
    - left. exists u, p. rewrite kdecoded_app. apply in_app_iff. left. exact Hi.
    - right. rewrite E2. exact Hd. }
  assert (Hc : blame (fst (ktunnel_closed st)) (tr ++ snd (ktunnel_closed st))).
  { unfold ktunnel_closed. destruct (ksay_bye (k_map st) st). intros H. discriminate. }
  destruct e as [s|s d|s rr|h|h|h| | |b| |n| |]; cbn [kstep].
  - destruct (_ <? _); apply Hs; reflexivity.
  - destruct (_ <? _); apply Hs; reflexivity.
  - destruct (_ <? _); apply Hs; reflexivity.
  - destruct (k_box st h); [|destruct (kgone h st)]; apply Hs; reflexivity.
  - apply Hs; reflexivity.
  - destruct (lookup _ _ _); [destruct (_ <? _)|]; apply Hs; reflexivity.
  - destruct (k_phase st) eqn:Hp; try (apply Hs; [exact Hp|reflexivity]).
    destruct (k_work st) as [|[[? ?] ?] ?]; [apply Hs; [exact Hp|reflexivity]|intros H; discriminate].
  - destruct (k_phase st) eqn:Hp; try (apply Hs; [exact Hp|reflexivity]).
    destruct (k_out st); [apply Hs; [exact Hp|reflexivity]|intros H; discriminate].
  - destruct (k_phase st) eqn:Hp; try (destruct b; apply Hs; [exact Hp|reflexivity|exact Hp|reflexivity]).
    destruct b; [exact Hc|intros H; discriminate].
  - destruct (k_phase st) eqn:Hp; try (apply Hs; [exact Hp|reflexivity]). exact Hc.
  - destruct (k_phase st) eqn:Hp; try (apply Hs; [exact Hp|reflexivity]).
    destruct (k_wbuf st); [apply Hs; [exact Hp|reflexivity]|intros H; discriminate].
  - destruct (k_phase st) eqn:Hp; try (apply Hs; [exact Hp|reflexivity]).
    destruct (k_wbuf st); [apply Hs; [exact Hp|reflexivity]|intros H; discriminate].
  - destruct (k_phase st) as [| |f0|x] eqn:Hp; try (apply Hs; [exact Hp|reflexivity]).
    2:{ destruct (_ <? _); [intros H; discriminate|apply Hs; [exact Hp|reflexivity]]. }
    destruct (decode_frame (k_rbuf st)) as [|f z|e0 z|] eqn:E; try (intros H; discriminate).
    2:{ intros _. right. exact E. }
    assert (T : forall h g, k_phase (fst (ktry_send h g (kset_rbuf z st))) = KDecode).
    { intros h g. unfold ktry_send. destruct (kgone _ _ || _); exact Hp. }
    intros H. destruct f as [s dom|s rr|s d|s ms|u p]; cbn [khandle] in *.
    + exfalso. match type of H with context [choose ?a ?b] => destruct (choose a b) as [m|] end.
      * destruct (is_proxy m); [|destruct (m_local m)]; cbn in H; rewrite Hp in H; discriminate.
      * destruct (_ <? _); cbn in H; rewrite ?Hp in H; discriminate.
    + exfalso. destruct (s =? 0); [cbn in H; rewrite Hp in H; discriminate|].
      destruct (lookup _ _ _) as [h|]; [|cbn in H; rewrite Hp in H; discriminate].
      specialize (T h (FClose s rr)). destruct (ktry_send _ _ _). cbn [fst] in *. congruence.
    + exfalso. destruct (lookup _ _ _) as [h|]; [|cbn in H; rewrite Hp in H; discriminate].
      specialize (T h (FData s d)). destruct (ktry_send _ _ _). cbn [fst] in *. congruence.
    + exfalso. cbn in H. congruence.
    + left. exists u, p. rewrite kdecoded_app. apply in_app_iff. right. left. reflexivity.
Qed.
Lemma blame_reach c ms ess k0 es st tr : sessions c ms ess k0 -> krun k0 es = (st, tr) -> blame st tr.
Proof.
  intros H. apply (krun_reach blame); [|intros; apply blame_step; assumption].
  intros Hp. exfalso. destruct (sessions_start _ _ _ _ H) as (_ & _ & _ & _ & E). rewrite E in Hp.
  destruct (snd (hello c ms)); discriminate.
Qed.

(* ---- local connections are new in every session -------------------------------- *)
Lemma krun_next es : forall st,
  k_next st <= k_next (fst (krun st es)) /\
  forall s h a, In (QConnect s h a) (snd (krun st es)) -> k_next st <= h < k_next (fst (krun st es)).
Proof.
  induction es as [|e es IH]; intros st; [split; [apply N.le_refl|intros ? ? ? []]|].
  rewrite krun_cons. cbn [fst snd]. destruct (IH (fst (kstep st e))) as [A B].
  destruct (kconn_step st e) as [(_ & K & F)|[(s0 & _ & K & F)|(h0 & _ & _ & K & F)]].
  - split; [lia|]. intros s h a H. apply in_app_or in H as [H|H]; [destruct (noconn_in _ _ _ _ F H)|].
    specialize (B _ _ _ H). lia.
  - split; [lia|]. intros s h a H. apply in_app_or in H as [H|H]; [destruct (F _ _ _ H); subst; lia|].
    specialize (B _ _ _ H). lia.
  - split; [lia|]. intros s h a H. apply in_app_or in H as [H|H]; [destruct (noconn_in _ _ _ _ F H)|].
    specialize (B _ _ _ H). lia.
Qed.
Lemma sessions_last c ms ess es k2 : sessions c ms (ess ++ [es]) k2 ->
  exists k0 st tr, sessions c ms ess k0 /\ krun k0 es = (st, tr) /\ k2 = kagain c ms st.
Proof.
  intros H. inversion H as [E|ess' k0 es' st tr H1 H2 H3 E]; [destruct ess; discriminate|].
  apply app_inj_tail in E as [-> ->]. exists k0, st, tr. repeat split; assumption.
Qed.
Lemma sessions_fun c ms ess : forall k k', sessions c ms ess k -> sessions c ms ess k' -> k = k'.
Proof.
  induction ess as [|es ess IH] using rev_ind; intros k k' H H'.
  - inversion H as [|a0 ? ? ? ? ? ? ? E]; [|destruct a0; discriminate].
    inversion H' as [|a1 ? ? ? ? ? ? ? E']; [reflexivity|destruct a1; discriminate].
  - apply sessions_last in H as (k0 & st & tr & H1 & H2 & ->).
    apply sessions_last in H' as (k0' & st' & tr' & H1' & H2' & ->).
    rewrite <- (IH _ _ H1 H1') in H2'. rewrite H2 in H2'. injection H2' as <- _. reflexivity.
Qed.
Lemma sessions_next c ms rest : forall ess k1 es st1 tr1 k2, sessions c ms ess k1 -> krun k1 es = (st1, tr1) ->
  sessions c ms (ess ++ es :: rest) k2 -> k_next st1 <= k_next k2.
Proof.
  induction rest as [|x rest IH] using rev_ind; intros ess k1 es st1 tr1 k2 H1 H2 H.
  - apply sessions_last in H as (k0 & st & tr & A & B & ->).
    rewrite <- (sessions_fun _ _ _ _ _ H1 A), H2 in B. injection B as <- _. apply N.le_refl.
  - rewrite app_comm_cons, app_assoc in H. apply sessions_last in H as (k0 & st & tr & A & B & ->).
    specialize (IH _ _ _ _ _ _ H1 H2 A). pose proof (proj1 (krun_next x k0)) as K. rewrite B in K. cbn in *. lia.
Qed.
