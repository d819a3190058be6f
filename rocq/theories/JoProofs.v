(* Proofs about joint histories of client and server. *)
From Verif Require Import Base Text ProtModel ProtSpec ProtProofs CsModel CsSpec CsProofs CcModel CcSpec CcProofs CcCreate
  TunSpec TunServer TunClient TunProofs TunMore TunFlow JoSpec.
Open Scope N_scope.

Lemma evs_app a b : evs (a ++ b) = evs a ++ evs b.
Proof. apply flat_map_app. Qed.
Lemma kevs_app a b : kevs (a ++ b) = kevs a ++ kevs b.
Proof. apply flat_map_app. Qed.
Lemma seen_app c a b : prefix (seen c a) (seen c (a ++ b)).
Proof. unfold seen. rewrite evs_app, run_app. cbn [snd]. apply prefix_app. Qed.
Lemma kseen_app c ms a b : prefix (kseen c ms a) (kseen c ms (a ++ b)).
Proof. unfold kseen. rewrite kevs_app, krun_app. cbn [snd]. apply prefix_app. Qed.

Lemma whole_prefix c ms p q : whole c ms (p ++ q) -> whole c ms p.
Proof.
  intros [A B C D E]. rewrite kevs_app in D. rewrite evs_app in E.
  apply Forall_app in D as [D _]. apply Forall_app in E as [E _].
  constructor; try assumption. intros a b ->. apply (A a (b ++ q)). symmetry. apply app_assoc.
Qed.

Lemma whole_tunnel c ms w : whole c ms w ->
  tunnel c ms (kevs w) (evs w) (fst (krun (k_init c ms) (kevs w))) (kseen c ms w)
    (fst (run c (s_init c) (evs w))) (seen c w).
Proof.
  intros [A B C D E]. destruct (A w [] (eq_sym (app_nil_r w))) as [A1 A2].
  constructor; try assumption.
  - unfold kseen. destruct (krun (k_init c ms) (kevs w)). reflexivity.
  - unfold seen. destruct (run c (s_init c) (evs w)). reflexivity.
Qed.

(* the step that showed something *)
Lemma found_at c : forall w a x b, seen c w = a ++ x :: b ->
  exists w1 e w2 o1 o2, w = w1 ++ AtServer e :: w2 /\
    snd (step c (fst (run c (s_init c) (evs w1))) e) = o1 ++ x :: o2 /\ a = seen c w1 ++ o1.
Proof.
  induction w as [|j w IH] using rev_ind; intros a x b E.
  - destruct a; discriminate.
  - assert (R : forall b', seen c w = a ++ x :: b' -> exists w1 e w2 o1 o2,
      w ++ [j] = w1 ++ AtServer e :: w2 /\
      snd (step c (fst (run c (s_init c) (evs w1))) e) = o1 ++ x :: o2 /\ a = seen c w1 ++ o1).
    { intros b' E'. destruct (IH _ _ _ E') as (w1 & e & w2 & o1 & o2 & -> & H1 & H2).
      exists w1, e, (w2 ++ [j]), o1, o2. rewrite <- app_assoc. repeat split; assumption. }
    destruct j as [e|e].
    + unfold seen in E. rewrite evs_app, run_app in E. cbn [evs flat_map app snd] in E. rewrite run_cons in E.
      cbn [run snd] in E. rewrite app_nil_r in E. fold (seen c w) in E.
      apply app_eq_app in E as (l & [[E1 E2]|[E1 E2]]).
      * destruct l as [|y l].
        -- rewrite app_nil_r in E1. cbn in E2. exists w, e, [], [], b. repeat split.
           ++ symmetry. exact E2.
           ++ rewrite app_nil_r. symmetry. exact E1.
        -- cbn in E2. injection E2 as -> E2. exact (R l E1).
      * exists w, e, [], l, b. repeat split; assumption.
    + unfold seen in E. rewrite evs_app in E. cbn [evs flat_map app] in E. rewrite app_nil_r in E. exact (R b E).
Qed.

Lemma in_at {A} (x : A) l : In x l -> exists a b, l = a ++ x :: b.
Proof. apply in_split. Qed.

Lemma kev_at w e : In e (kevs w) -> exists p q, w = p ++ AtClient e :: q.
Proof.
  intros H. apply in_flat_map in H as (j & Hj & He). destruct j as [e'|e']; [destruct He|].
  destruct He as [->|[]]. apply in_split in Hj as (p & q & ->). exists p, q. reflexivity.
Qed.

(* a create frame of the server has its binding *)
Lemma create_binds c s d : forall es st, out_inv st -> In (s, d) (creates (pushed c st es)) ->
  exists h, In (OBind s h) (snd (run c st es)).
Proof.
  induction es as [|e es IH]; intros st Ho H; [destruct H|].
  cbn [pushed] in H. rewrite creates_app in H. rewrite run_cons. cbn [snd].
  apply in_app_iff in H as [H|H].
  - assert (exists h, In (OBind s h) (snd (step c st e))) as [h G].
    { destruct e as [? ?|? ?|? ?|?|?| | |?| |?| |]; cbn [push1] in H; try destruct H.
      - cbn [step]. destruct (s_phase st); try destruct H. destruct (s_work st) as [|[[s0 d0] h0] w]; [destruct H|].
        destruct H as [H|[]]. injection H as -> ->. exists h0. left. reflexivity.
      - destruct (s_phase st); try destruct H. unfold out_inv in Ho. destruct (s_out st) as [|f o]; [destruct H|].
        inversion_clear Ho. destruct f; try destruct H; contradiction.
      - destruct (s_phase st); try destruct H. destruct (decode_frame (s_rbuf st)) as [|f r|f r|]; try destruct H.
        destruct (refuses c st f); destruct H. }
    exists h. apply in_app_iff. left. exact G.
  - destruct (IH _ (out_inv_step c st e Ho) H) as [h G]. exists h. apply in_app_iff. right. exact G.
Qed.

(* a stream at the client comes from a create frame or from a local visitor *)
Lemma ksay_bye_binds m : forall st, k_work (fst (ksay_bye m st)) = k_work st /\
  k_out (fst (ksay_bye m st)) = k_out st /\ forall s h, ~ In (QBind s h) (snd (ksay_bye m st)).
Proof.
  induction m as [|[s h] m IH]; intros st; [repeat split; intros ? ? []|].
  cbn [ksay_bye]. destruct (kgone h st || negb (nlen (k_box st h) <? handler_cap)); [apply IH|].
  specialize (IH (kset_box h (k_box st h ++ [FClose s []]) st)).
  destruct (ksay_bye m _) as [st' es]. cbn [fst snd] in *. destruct IH as (A & B & C).
  repeat split; try assumption. intros s0 h0 [E|H]; [discriminate|exact (C _ _ H)].
Qed.
Lemma kclosed_binds st : k_work (fst (ktunnel_closed st)) = k_work st /\
  k_out (fst (ktunnel_closed st)) = k_out st /\ forall s h, ~ In (QBind s h) (snd (ktunnel_closed st)).
Proof.
  unfold ktunnel_closed. pose proof (ksay_bye_binds (k_map st) st) as H.
  destruct (ksay_bye (k_map st) st) as [st' es]. cbn [fst snd] in *. destruct H as (A & B & C).
  repeat split; try assumption. intros s h H. apply in_app_iff in H as [H|[H|[]]]; [exact (C _ _ H)|discriminate].
Qed.

Definition createless (f : frame) : Prop := match f with FCreate _ _ => False | _ => True end.
Record kstep_binds (st : kst) (e : kev) : Prop := {
  kb_work : forall x, In x (k_work (fst (kstep st e))) -> In x (k_work st) \/ e = KOpen (fst (fst x));
  kb_out : Forall createless (k_out st) -> Forall createless (k_out (fst (kstep st e)));
  kb_bind : forall s h o1 o2, snd (kstep st e) = o1 ++ QBind s h :: o2 ->
    (exists d, In (s, d, h) (k_work st)) \/ exists d o, o1 = o ++ [QDecoded (FCreate s d)]
}.

Lemma ktry_binds h f st : k_work (fst (ktry_send h f st)) = k_work st /\ k_out (fst (ktry_send h f st)) = k_out st /\
  forall s h', ~ In (QBind s h') (snd (ktry_send h f st)).
Proof.
  unfold ktry_send. destruct (kgone h st || negb (nlen (k_box st h) <? handler_cap)); repeat split;
    intros s h' [E|[]]; discriminate.
Qed.

Lemma kbinds_step st e : stuck_close st -> kstep_binds st e.
Proof.
  intros Hc.
  assert (Q : forall st' o, kstep st e = (st', o) -> k_work st' = k_work st ->
     (Forall createless (k_out st) -> Forall createless (k_out st')) ->
     (forall s h, ~ In (QBind s h) o) -> kstep_binds st e).
  { intros st' o E A B C. constructor; rewrite E; cbn [fst snd].
    - rewrite A. intros x H. left. exact H.
    - exact B.
    - intros s h o1 o2 H. destruct (C s h). rewrite H. apply in_app_iff. right. left. reflexivity. }
  assert (Z : forall s h, ~ In (QBind s h) []) by (intros ? ? []).
  assert (P : forall f, createless f -> Forall createless (k_out st) -> Forall createless (k_out st ++ [f]))
    by (intros f Hf H; apply Forall_app; split; [exact H|constructor; [exact Hf|constructor]]).
  destruct e as [s|s d|s r|h|h|h| | |b| |n| |].
  - destruct (nlen (k_work st) <? work_cap) eqn:E.
    + constructor; cbn [kstep]; rewrite E; cbn [fst snd].
      * cbn [kfresh kset_work k_work]. intros x H. apply in_app_iff in H as [H|[<-|[]]]; [left; exact H|right; reflexivity].
      * intros H. exact H.
      * intros ? ? [|? ?] ? H; discriminate.
    + eapply Q; [cbn [kstep]; rewrite E; reflexivity|reflexivity|intros H; exact H|exact Z].
  - destruct (nlen (k_out st) <? out_cap) eqn:E; (eapply Q; [cbn [kstep]; rewrite E; reflexivity|reflexivity| |exact Z]).
    + apply (P (FData s d) I).
    + intros H; exact H.
  - destruct (nlen (k_out st) <? out_cap) eqn:E; (eapply Q; [cbn [kstep]; rewrite E; reflexivity|reflexivity| |exact Z]).
    + apply (P (FClose s r) I).
    + intros H; exact H.
  - destruct (k_box st h) as [|f q] eqn:E; [eapply Q; [cbn [kstep]; rewrite E; reflexivity|reflexivity|intros H; exact H|exact Z]|].
    destruct (kgone h st) eqn:G; (eapply Q; [cbn [kstep]; rewrite E, G; reflexivity|reflexivity|intros H; exact H|]).
    + exact Z.
    + intros s0 h0 [H|[]]. discriminate.
  - eapply Q; [reflexivity|reflexivity|intros H; exact H|exact Z].
  - destruct (lookup N.eqb h (k_conn st)) as [s|] eqn:L;
      [|eapply Q; [cbn [kstep]; rewrite L; reflexivity|reflexivity|intros H; exact H|exact Z]].
    destruct (nlen (k_out st) <? out_cap) eqn:E; (eapply Q; [cbn [kstep]; rewrite L, E; reflexivity|reflexivity| |exact Z]).
    + apply (P (FClose s []) I).
    + intros H; exact H.
  - (* KWork *)
    destruct (k_phase st) eqn:Ep; try (eapply Q; [cbn [kstep]; rewrite Ep; reflexivity|reflexivity|intros H; exact H|exact Z]).
    destruct (k_work st) as [|[[s d] h] w] eqn:Ew.
    + eapply Q; [cbn [kstep]; rewrite Ep, Ew; reflexivity|rewrite Ew; reflexivity|intros H; exact H|exact Z].
    + constructor; cbn [kstep]; rewrite Ep, Ew; cbn [fst snd].
      * intros x H. left. right. exact H.
      * intros H. exact H.
      * intros s0 h0 o1 o2 H. destruct o1 as [|? [|? ?]]; try discriminate.
        injection H as <- <- _. left. exists d. left. reflexivity.
  - (* KOut *)
    destruct (k_phase st) eqn:Ep; try (eapply Q; [cbn [kstep]; rewrite Ep; reflexivity|reflexivity|intros H; exact H|exact Z]).
    destruct (k_out st) as [|f o] eqn:Eo.
    + eapply Q; [cbn [kstep]; rewrite Ep, Eo; reflexivity|reflexivity|rewrite Eo; intros H; exact H|exact Z].
    + eapply Q; [cbn [kstep]; rewrite Ep, Eo; reflexivity|reflexivity| |exact Z].
      intros H. inversion_clear H. assumption.
  - (* KRead *)
    destruct (k_phase st) eqn:Ep; try (eapply Q; [cbn [kstep]; rewrite Ep; reflexivity|reflexivity|intros H; exact H|exact Z]).
    destruct b as [|y b].
    + destruct (kclosed_binds st) as (A & B & C).
      eapply Q; [cbn [kstep]; rewrite Ep; apply surjective_pairing|exact A|rewrite B; intros H; exact H|exact C].
    + eapply Q; [cbn [kstep]; rewrite Ep; reflexivity|reflexivity|intros H; exact H|].
      intros s0 h0 [H|[]]. discriminate.
  - destruct (k_phase st) eqn:Ep; try (eapply Q; [cbn [kstep]; rewrite Ep; reflexivity|reflexivity|intros H; exact H|exact Z]).
    destruct (kclosed_binds st) as (A & B & C).
    eapply Q; [cbn [kstep]; rewrite Ep; apply surjective_pairing|exact A|rewrite B; intros H; exact H|exact C].
  - destruct (k_phase st) eqn:Ep; try (eapply Q; [cbn [kstep]; rewrite Ep; reflexivity|reflexivity|intros H; exact H|exact Z]).
    destruct (k_wbuf st) eqn:Ew; (eapply Q; [cbn [kstep]; rewrite Ep, Ew; reflexivity|reflexivity|intros H; exact H|]).
    + exact Z.
    + intros s0 h0 [H|[]]. discriminate.
  - destruct (k_phase st) eqn:Ep; try (eapply Q; [cbn [kstep]; rewrite Ep; reflexivity|reflexivity|intros H; exact H|exact Z]).
    destruct (k_wbuf st) eqn:Ew; (eapply Q; [cbn [kstep]; rewrite Ep, Ew; reflexivity|reflexivity|intros H; exact H|exact Z]).
  - (* KStep *)
    destruct (k_phase st) as [| |f|r] eqn:Ep; try (eapply Q; [cbn [kstep]; rewrite Ep; reflexivity|reflexivity|intros H; exact H|exact Z]).
    + destruct (decode_frame (k_rbuf st)) as [|f r|f r|] eqn:Ed.
      * eapply Q; [cbn [kstep]; rewrite Ep, Ed; reflexivity|reflexivity|intros H; exact H|exact Z].
      * assert (E : kstep st KStep = khandle f (kset_rbuf r st)) by (cbn [kstep]; rewrite Ep, Ed; reflexivity).
        destruct f as [s d|s d|s d|s l|u p]; cbn [khandle] in E.
        -- destruct (choose (k_maps (kset_rbuf r st)) _) as [m|].
           ++ assert ((exists o, snd (kstep st KStep) = [QDecoded (FCreate s d); QBind s (k_next (kset_rbuf r st)); o] /\
                  forall s0 h0, o <> QBind s0 h0) /\ k_work (fst (kstep st KStep)) = k_work st /\
                k_out (fst (kstep st KStep)) = k_out st) as (A & B & C).
              { destruct (is_proxy m); [|destruct (m_local m)]; rewrite E; cbn [snd fst];
                  (split; [eexists; split; [reflexivity|discriminate]|]); split; reflexivity. }
              constructor.
              ** rewrite B. intros x H. left. exact H.
              ** rewrite C. intros H. exact H.
              ** intros s0 h0 o1 o2 H. right. destruct A as (o & A & Ao). rewrite A in H.
                 destruct o1 as [|y1 o1]; [discriminate|]. cbn [app] in H. injection H as <- H.
                 destruct o1 as [|y2 o1]; cbn [app] in H; [injection H as <- <- _; exists d, []; reflexivity|].
                 injection H as _ H. destruct o1 as [|y3 o1]; cbn [app] in H; [injection H as H _; destruct (Ao _ _ H)|].
                 injection H as _ H. destruct o1; discriminate.
           ++ destruct (nlen (k_out (kset_rbuf r st)) <? out_cap); (eapply Q; [exact E|reflexivity| |]).
              ** apply (P (FClose s []) I).
              ** intros s0 h0 [H|[H|[]]]; discriminate.
              ** intros H; exact H.
              ** intros s0 h0 [H|[]]; discriminate.
        -- destruct (s =? 0).
           ++ eapply Q; [exact E|reflexivity|intros H; exact H|]. intros s0 h0 [H|[]]; discriminate.
           ++ destruct (lookup N.eqb s (k_map (kset_rbuf r st))) as [h|].
              ** destruct (ktry_binds h (FClose s d) (kset_rbuf r st)) as (A & B & C).
                 destruct (ktry_send h (FClose s d) (kset_rbuf r st)) as [st' o]. cbn [fst snd] in *.
                 eapply Q; [exact E|exact A|rewrite B; intros H; exact H|].
                 intros s0 h0 [H|H]; [discriminate|exact (C _ _ H)].
              ** eapply Q; [exact E|reflexivity|intros H; exact H|]. intros s0 h0 [H|[]]; discriminate.
        -- destruct (lookup N.eqb s (k_map (kset_rbuf r st))) as [h|].
           ++ destruct (ktry_binds h (FData s d) (kset_rbuf r st)) as (A & B & C).
              destruct (ktry_send h (FData s d) (kset_rbuf r st)) as [st' o]. cbn [fst snd] in *.
              eapply Q; [exact E|exact A|rewrite B; intros H; exact H|].
              intros s0 h0 [H|H]; [discriminate|exact (C _ _ H)].
           ++ eapply Q; [exact E|reflexivity|intros H; exact H|]. intros s0 h0 [H|[]]; discriminate.
        -- eapply Q; [exact E|reflexivity|intros H; exact H|]. intros s0 h0 [H|[]]; discriminate.
        -- eapply Q; [exact E|reflexivity|intros H; exact H|]. intros s0 h0 [H|[H|[]]]; discriminate.
      * eapply Q; [cbn [kstep]; rewrite Ep, Ed; reflexivity|reflexivity|intros H; exact H|].
        intros s0 h0 [H|[]]; discriminate.
      * eapply Q; [cbn [kstep]; rewrite Ep, Ed; reflexivity|reflexivity|intros H; exact H|].
        intros s0 h0 [H|[]]; discriminate.
    + destruct (Hc f Ep) as [s' ->].
      destruct (nlen (k_out st) <? out_cap) eqn:E; (eapply Q; [cbn [kstep]; rewrite Ep, E; reflexivity|reflexivity| |]).
      * apply (P (FClose s' []) I).
      * intros s0 h0 [H|[]]; discriminate.
      * intros H; exact H.
      * exact Z.
Qed.

Lemma bind_origin c ms : forall es,
  (forall s h, In (QBind s h) (snd (krun (k_init c ms) es)) ->
    In (KOpen s) es \/ exists d, In (FCreate s d) (kdecoded (snd (krun (k_init c ms) es)))) /\
  (forall x, In x (k_work (fst (krun (k_init c ms) es))) -> In (KOpen (fst (fst x))) es) /\
  Forall createless (k_out (fst (krun (k_init c ms) es))) /\ stuck_close (fst (krun (k_init c ms) es)) /\
  (forall s d, In (FCreate s d) (kpushed (k_init c ms) es) -> In (KOpen s) es).
Proof.
  induction es as [|e es IH] using rev_ind.
  - split; [intros ? ? []|]. split; [intros ? []|]. split; [constructor|].
    split; [apply stuck_close_init|intros ? ? []].
  - destruct IH as (A & B & C & D & F). rewrite krun_app. cbn [fst snd]. rewrite kpushed_app.
    set (st := fst (krun (k_init c ms) es)) in *. rewrite krun_cons. cbn [krun fst snd]. rewrite app_nil_r.
    cbn [kpushed]. rewrite app_nil_r.
    destruct (kbinds_step st e D) as [K1 K2 K3].
    assert (M : forall s, In (KOpen s) es -> In (KOpen s) (es ++ [e])) by (intros; apply in_app_iff; left; assumption).
    split; [|split; [|split; [|split]]].
    + intros s h H. rewrite kdecoded_app. apply in_app_iff in H as [H|H].
      * destruct (A s h H) as [G|[d G]]; [left; apply M; exact G|right; exists d; apply in_app_iff; left; exact G].
      * apply in_split in H as (o1 & o2 & H). destruct (K3 s h o1 o2 H) as [[d G]|(d & o & G)].
        -- left. apply M. exact (B _ G).
        -- right. exists d. apply in_app_iff. right. rewrite H, G, !kdecoded_app. apply in_app_iff. left.
           apply in_app_iff. right. left. reflexivity.
    + intros x H. destruct (K1 x H) as [G| ->]; [apply M, B; exact G|]. apply in_app_iff. right. left. reflexivity.
    + apply K2. exact C.
    + apply stuck_close_step. exact D.
    + intros s d H. apply in_app_iff in H as [H|H]; [apply M; exact (F s d H)|].
      apply M. destruct e; cbn [kpush1] in H; try destruct H.
      * destruct (k_phase st); try destruct H. destruct (k_work st) as [|[[s0 d0] h0] w] eqn:Ew; [destruct H|].
        destruct H as [H|[]]. injection H as -> ->. apply (B (s, d, h0)). left. reflexivity.
      * destruct (k_phase st); try destruct H. destruct (k_out st) as [|f o]; [destruct H|].
        destruct H as [->|[]]. inversion_clear C. contradiction.
Qed.

(* a stream at the client without local visitor was opened at the server *)
Lemma bind_from_server c ms w s h : whole c ms w -> ~ In (KOpen s) (kevs w) ->
  In (QBind s h) (kseen c ms w) -> exists h', In (OBind s h') (seen c w).
Proof.
  intros W Hn H. destruct (bind_origin c ms (kevs w)) as (A & _).
  destruct (A s h H) as [G|[d G]]; [destruct (Hn G)|].
  pose proof (client_sees _ _ _ _ _ _ _ _ _ (tunnel_link _ _ _ _ _ _ _ _ (whole_tunnel _ _ _ W))) as [P _].
  apply (prefix_in _ _ _ P) in G. apply create_in in G.
  apply (create_binds c s d (evs w) (s_init c)); [constructor|exact G].
Qed.

Lemma silent_service s : forall es st, (forall d, ~ In (KData s d) es) -> service_bytes s st es = [].
Proof.
  induction es as [|e es IH]; intros st H; [reflexivity|]. cbn [service_bytes].
  rewrite (IH _ (fun d G => H d (or_intror G))), app_nil_r.
  destruct e; try reflexivity. destruct (N.eqb_spec s0 s) as [->|]; [|reflexivity].
  destruct (H d (or_introl eq_refl)).
Qed.

Lemma deliver_binds h f st s h' : ~ In (OBind s h') (snd (deliver h f st)).
Proof.
  unfold deliver. destruct (gone h st); [intros [E|[]]; discriminate|].
  destruct (nlen (s_box st h) <? handler_cap); [intros [E|[]]; discriminate|intros []].
Qed.
Lemma say_bye_binds s h m : forall st, ~ In (OBind s h) (snd (say_bye m st)).
Proof.
  induction m as [|[s0 h0] m IH]; intros st; [intros []|].
  cbn [say_bye]. destruct (gone h0 st || negb (nlen (s_box st h0) <? handler_cap)); [apply IH|].
  specialize (IH (set_box h0 (s_box st h0 ++ [FClose s0 []]) st)).
  destruct (say_bye m _) as [st' es]. cbn [snd] in *. intros [E|H]; [discriminate|exact (IH H)].
Qed.
Lemma closed_binds s h st : ~ In (OBind s h) (snd (tunnel_closed st)).
Proof.
  unfold tunnel_closed. pose proof (say_bye_binds s h (s_map st) st) as H.
  destruct (say_bye (s_map st) st) as [st' es]. cbn [snd] in *. intros G.
  apply in_app_iff in G as [G|[G|[]]]; [exact (H G)|discriminate].
Qed.

Lemma bind_quiet c st e s h : In (OBind s h) (snd (step c st e)) -> payload s (decoded (snd (step c st e))) = [].
Proof.
  intros H.
  destruct e as [s0 v|s0 d|s0 r|h0|h0| | |b| |n| |]; cbn [step] in *.
  - destruct (visit_domain (s_maps st) v); [destruct (nlen (s_work st) <? work_cap)|]; destruct H.
  - destruct (is_open s0 st && (nlen (s_out st) <? out_cap)); destruct H.
  - destruct (nlen (s_out st) <? out_cap); destruct H.
  - destruct (s_box st h0) as [|f q]; [destruct H|]. destruct (gone h0 st); [destruct H|].
    destruct H as [H|[]]. discriminate.
  - destruct H.
  - destruct (s_phase st); try destruct H. destruct (s_work st) as [|[[s1 d] h1] w]; [destruct H|]. reflexivity.
  - destruct (s_phase st); try destruct H. destruct (s_out st); destruct H.
  - destruct (s_phase st); try destruct H. destruct b; [destruct (closed_binds _ _ _ H)|reflexivity].
  - destruct (s_phase st); try destruct H. destruct (closed_binds _ _ _ H).
  - destruct (s_phase st); try destruct H. destruct (s_wbuf st); [destruct H|].
    destruct (s_wbuf (set_wbuf _ st)); [destruct (s_shut st)|]; reflexivity.
  - destruct (s_phase st); try destruct H. destruct (s_wbuf st); [destruct H|]. reflexivity.
  - destruct (s_phase st) as [| |h0 f|r]; try destruct H; [|destruct (deliver_binds _ _ _ _ _ H)].
    destruct (decode_frame (s_rbuf st)) as [|f r|f r|]; try destruct H as [H|[]]; try discriminate; [destruct H|].
    destruct f as [s0 d|s0 d|s0 d|s0 l|u p]; cbn [handle] in *.
    + destruct (negb (s_verify (set_rbuf r st))); reflexivity.
    + destruct (negb (s_verify (set_rbuf r st))); [reflexivity|].
      destruct (lookup N.eqb s0 (s_map (set_rbuf r st))) as [h0|]; [|reflexivity].
      pose proof (deliver_binds h0 (FClose s0 d) (set_rbuf r st) s h) as G.
      destruct (deliver h0 (FClose s0 d) (set_rbuf r st)) as [st' o]. cbn [snd] in *.
      destruct H as [H|H]; [discriminate|destruct (G H)].
    + destruct (negb (s_verify (set_rbuf r st))); [reflexivity|].
      destruct (lookup N.eqb s0 (s_map (set_rbuf r st))) as [h0|].
      * pose proof (deliver_binds h0 (FData s0 d) (set_rbuf r st) s h) as G.
        destruct (deliver h0 (FData s0 d) (set_rbuf r st)) as [st' o]. cbn [snd] in *.
        destruct H as [H|H]; [discriminate|destruct (G H)].
      * destruct H as [H|[]]. discriminate.
    + destruct (negb (s_verify (set_rbuf r st))); reflexivity.
    + destruct (negb (s_verify (set_rbuf r st)) && check_succ c u p); [reflexivity|].
      destruct (negb (s_verify (set_rbuf r st))); reflexivity.
Qed.

Lemma early_silent c ms w s a h b : whole c ms w -> seen c w = a ++ OBind s h :: b ->
  (forall h', ~ In (OBind s h') a) -> replies_only c ms s w -> ~ In (KOpen s) (kevs w) ->
  payload s (decoded a) = [].
Proof.
  intros W E Ha Hr Hk. destruct (found_at c w a _ b E) as (w1 & e & w2 & o1 & o2 & -> & Hs & ->).
  rewrite decoded_app, payload_app.
  assert (Z1 : payload s (decoded o1) = []).
  { pose proof (bind_quiet c (fst (run c (s_init c) (evs w1))) e s h) as Q. rewrite Hs in Q.
    rewrite decoded_app, payload_app in Q.
    apply app_eq_nil in Q; [exact (proj1 Q)|]. apply in_app_iff. right. left. reflexivity. }
  rewrite Z1, app_nil_r.
  pose proof (whole_prefix _ _ _ _ W) as W1.
  pose proof (honest_up _ _ _ _ _ _ _ _ _ (tunnel_link _ _ _ _ _ _ _ _ (whole_tunnel _ _ _ W1)) s) as [more P].
  cbn [k_init k_out payload flat_map app] in P.
  rewrite silent_service in P; [symmetry in P; apply app_eq_nil in P; exact (proj1 P)|].
  intros d Hd. apply kev_at in Hd as (p & q & ->).
  destruct (Hr p d (q ++ AtServer e :: w2)) as [h1 Hb]; [rewrite <- app_assoc; reflexivity|].
  pose proof (whole_prefix _ _ _ _ W1) as Wp.
  destruct (bind_from_server c ms p s h1 Wp) as [h2 H2].
  - intros G. apply Hk. rewrite !kevs_app. apply in_app_iff. left. apply in_app_iff. left. exact G.
  - exact Hb.
  - apply (Ha h2). apply in_app_iff. left. apply (prefix_in _ _ _ (seen_app c p (AtClient (KData s d) :: q)) H2).
Qed.

(* ---- the server end: data after its create frame ---------------------------- *)
Lemma say_bye_open m : forall st, s_open (fst (say_bye m st)) = s_open st.
Proof.
  induction m as [|[s0 h0] m IH]; intros st; [reflexivity|].
  cbn [say_bye]. destruct (gone h0 st || negb (nlen (s_box st h0) <? handler_cap)); [apply IH|].
  specialize (IH (set_box h0 (s_box st h0 ++ [FClose s0 []]) st)).
  destruct (say_bye m _) as [st' es]. exact IH.
Qed.
Lemma closed_open st : s_open (fst (tunnel_closed st)) = s_open st.
Proof.
  unfold tunnel_closed. pose proof (say_bye_open (s_map st) st) as H.
  destruct (say_bye (s_map st) st) as [st' es]. exact H.
Qed.
Lemma deliver_open h f st : s_open (fst (deliver h f st)) = s_open st.
Proof. unfold deliver. destruct (gone h st); [reflexivity|]. destruct (nlen (s_box st h) <? handler_cap); reflexivity. Qed.

(* what opens a stream at the server *)
Lemma open_step c st e : exists l, s_open (fst (step c st e)) = l ++ s_open st /\
  forall s, In s l -> In s (map fst (ask1 st e)) \/ exists d, In (FCreate s d) (decoded (snd (step c st e))).
Proof.
  assert (Q : forall st' o, step c st e = (st', o) -> s_open st' = s_open st -> exists l, s_open (fst (step c st e)) = l ++ s_open st /\
    forall s, In s l -> In s (map fst (ask1 st e)) \/ exists d, In (FCreate s d) (decoded (snd (step c st e)))).
  { intros st' o E H. exists []. rewrite E. split; [exact H|intros ? []]. }
  destruct e as [s0 v|s0 d|s0 r|h0|h0| | |b| |n| |]; cbn [step ask1] in *.
  - destruct (visit_domain (s_maps st) v); [|apply (Q _ _ eq_refl); reflexivity].
    destruct (nlen (s_work st) <? work_cap); [|apply (Q _ _ eq_refl); reflexivity].
    exists [s0]. split; [reflexivity|]. intros s [->|[]]. left. left. reflexivity.
  - destruct (is_open s0 st && (nlen (s_out st) <? out_cap)); apply (Q _ _ eq_refl); reflexivity.
  - destruct (nlen (s_out st) <? out_cap); apply (Q _ _ eq_refl); reflexivity.
  - destruct (s_box st h0) as [|f q]; [apply (Q _ _ eq_refl); reflexivity|].
    destruct (gone h0 st); apply (Q _ _ eq_refl); reflexivity.
  - apply (Q _ _ eq_refl); reflexivity.
  - destruct (s_phase st); try (apply (Q _ _ eq_refl); reflexivity).
    destruct (s_work st) as [|[[s1 d] h1] w]; apply (Q _ _ eq_refl); reflexivity.
  - destruct (s_phase st); try (apply (Q _ _ eq_refl); reflexivity).
    destruct (s_out st); apply (Q _ _ eq_refl); reflexivity.
  - destruct (s_phase st); try (apply (Q _ _ eq_refl); reflexivity).
    destruct b; [|apply (Q _ _ eq_refl); reflexivity].
    eapply Q; [apply surjective_pairing|apply closed_open].
  - destruct (s_phase st); try (apply (Q _ _ eq_refl); reflexivity).
    eapply Q; [apply surjective_pairing|apply closed_open].
  - destruct (s_phase st); try (apply (Q _ _ eq_refl); reflexivity).
    destruct (s_wbuf st); [apply (Q _ _ eq_refl); reflexivity|].
    destruct (s_wbuf (set_wbuf _ st)); [destruct (s_shut st)|]; apply (Q _ _ eq_refl); reflexivity.
  - destruct (s_phase st); try (apply (Q _ _ eq_refl); reflexivity).
    destruct (s_wbuf st); apply (Q _ _ eq_refl); reflexivity.
  - destruct (s_phase st) as [| |h0 f|r]; try (apply (Q _ _ eq_refl); reflexivity).
    2: { eapply Q; [apply surjective_pairing|apply deliver_open]. }
    destruct (decode_frame (s_rbuf st)) as [|f r|f r|]; try (apply (Q _ _ eq_refl); reflexivity).
    destruct f as [s0 d|s0 d|s0 d|s0 l|u p]; cbn [handle] in *.
    + destruct (negb (s_verify (set_rbuf r st))); [apply (Q _ _ eq_refl); reflexivity|].
      exists [s0]. split; [reflexivity|]. intros s [->|[]]. right. exists d. left. reflexivity.
    + destruct (negb (s_verify (set_rbuf r st))); [apply (Q _ _ eq_refl); reflexivity|].
      destruct (lookup N.eqb s0 (s_map (set_rbuf r st))) as [h0|]; [|apply (Q _ _ eq_refl); reflexivity].
      pose proof (deliver_open h0 (FClose s0 d) (set_rbuf r st)) as G.
      destruct (deliver h0 (FClose s0 d) (set_rbuf r st)) as [st' o]. apply (Q _ _ eq_refl). exact G.
    + destruct (negb (s_verify (set_rbuf r st))); [apply (Q _ _ eq_refl); reflexivity|].
      destruct (lookup N.eqb s0 (s_map (set_rbuf r st))) as [h0|]; [|apply (Q _ _ eq_refl); reflexivity].
      pose proof (deliver_open h0 (FData s0 d) (set_rbuf r st)) as G.
      destruct (deliver h0 (FData s0 d) (set_rbuf r st)) as [st' o]. apply (Q _ _ eq_refl). exact G.
    + destruct (negb (s_verify (set_rbuf r st))); apply (Q _ _ eq_refl); reflexivity.
    + destruct (negb (s_verify (set_rbuf r st)) && check_succ c u p); [apply (Q _ _ eq_refl); reflexivity|].
      destruct (negb (s_verify (set_rbuf r st))); apply (Q _ _ eq_refl); reflexivity.
Qed.

Lemma is_open_in s st : is_open s st = true <-> In s (s_open st).
Proof.
  unfold is_open. rewrite existsb_exists. split.
  - intros (x & H & E). apply N.eqb_eq in E. subst x. exact H.
  - intros H. exists s. split; [exact H|apply N.eqb_refl].
Qed.

Lemma in_creates s fs : In s (map fst (creates fs)) -> exists x d y, fs = x ++ FCreate s d :: y.
Proof.
  intros H. apply in_map_iff in H as ([s' d] & E & H). cbn in E. subst s'.
  apply in_flat_map in H as (f & Hf & H). destruct f; cbn in H; try contradiction.
  destruct H as [H|[]]. injection H as -> ->. apply in_split in Hf as (x & y & ->). exists x, d, y. reflexivity.
Qed.

Lemma data_after_create c s : forall es,
  (forall e1 e2, es = e1 ++ EvOut :: e2 -> s_work (fst (run c (s_init c) e1)) = []) ->
  (forall d, ~ In (FCreate s d) (decoded (snd (run c (s_init c) es)))) ->
  (is_open s (fst (run c (s_init c) es)) = true ->
     In s (map fst (works (fst (run c (s_init c) es)))) \/ In s (map fst (creates (pushed c (s_init c) es)))) /\
  (payload s (s_out (fst (run c (s_init c) es))) <> [] -> is_open s (fst (run c (s_init c) es)) = true) /\
  (payload s (pushed c (s_init c) es) = [] \/
   exists x d y, pushed c (s_init c) es = x ++ FCreate s d :: y /\ payload s x = []).
Proof.
  induction es as [|e es IH] using rev_ind; intros Hf Hd.
  - split; [discriminate|]. split; [intros H; destruct H; reflexivity|left; reflexivity].
  - rewrite run_app in Hd. cbn [snd] in Hd. rewrite decoded_app in Hd.
    destruct IH as (A & C & B).
    { intros e1 e2 E. apply (Hf e1 (e2 ++ [e])). rewrite E, <- app_assoc. reflexivity. }
    { intros d H. apply (Hd d). apply in_app_iff. left. exact H. }
    rewrite run_app. cbn [fst snd]. rewrite pushed_app.
    assert (Fe : e = EvOut -> s_work (fst (run c (s_init c) es)) = []).
    { intros ->. apply (Hf es []). reflexivity. }
    assert (Ho : out_inv (fst (run c (s_init c) es))).
    { destruct (run c (s_init c) es) as [st tr] eqn:R. exact (proj2 (registered_reach c es st tr R)). }
    set (st := fst (run c (s_init c) es)) in *. rewrite run_cons in *. cbn [run fst snd] in *.
    rewrite app_nil_r in Hd. cbn [pushed]. rewrite app_nil_r.
    destruct (sfacts c st e Ho) as [_ F2 F3 _ _]. destruct (open_step c st e) as (l & L1 & L2).
    assert (A' : is_open s (fst (step c st e)) = true -> is_open s st = true \/ In s (map fst (ask1 st e))).
    { rewrite !is_open_in, L1. intros H. apply in_app_iff in H as [H|H]; [|left; exact H].
      destruct (L2 s H) as [G|[d G]]; [right; exact G|].
      destruct (Hd d). apply in_app_iff. right. exact G. }
    split; [|split].
    + intros H. assert (G : In s (map fst (works st ++ ask1 st e)) \/ In s (map fst (creates (pushed c (s_init c) es)))).
      { rewrite map_app. destruct (A' H) as [G|G].
        - destruct (A G) as [K|K]; [left; apply in_app_iff; left; exact K|right; exact K].
        - left. apply in_app_iff. right. exact G. }
      rewrite <- F2, map_app in G. rewrite creates_app, map_app.
      destruct G as [G|G]; [apply in_app_iff in G as [G|G]|].
      * right. apply in_app_iff. right. exact G.
      * left. exact G.
      * right. apply in_app_iff. left. exact G.
    + intros H. assert (M : is_open s st = true -> is_open s (fst (step c st e)) = true).
      { rewrite !is_open_in, L1. intros K. apply in_app_iff. right. exact K. }
      apply M. destruct (payload s (s_out st)) eqn:Z; [|apply C; discriminate].
      specialize (F3 s). rewrite Z in F3. cbn [app] in F3.
      assert (K : payload s (put1 st e) <> []).
      { rewrite <- F3. intros K. apply app_eq_nil in K as [_ K]. exact (H K). }
      rewrite put1_payload in K. destruct e as [ |s0 d| | | | | | | | | | ]; try (destruct K; reflexivity).
      destruct (N.eqb_spec s0 s) as [->|]; [|destruct K; reflexivity].
      destruct (is_open s st); [reflexivity|destruct K; reflexivity].
    + destruct B as [B|(x & d & y & B & Bx)].
      2: { right. exists x, d, (y ++ push1 c st e). rewrite B, <- app_assoc. split; [reflexivity|exact Bx]. }
      destruct (payload s (push1 c st e)) eqn:Z; [left; rewrite payload_app, B, Z; reflexivity|].
      right.
      assert (K : e = EvOut /\ payload s (s_out st) <> []).
      { destruct e; cbn [push1] in Z; try discriminate.
        - destruct (s_phase st); try discriminate. destruct (s_work st) as [|[[s1 d] h1] w]; discriminate.
        - split; [reflexivity|]. destruct (s_phase st); try discriminate. destruct (s_out st) as [|f o]; [discriminate|].
          intros K. change (f :: o) with ([f] ++ o) in K. rewrite payload_app, Z in K. discriminate.
        - destruct (s_phase st); try discriminate. destruct (decode_frame (s_rbuf st)) as [|f r|f r|]; try discriminate.
          destruct (refuses c st f); discriminate. }
      destruct K as [-> K]. destruct (A (C K)) as [G|G].
      * unfold works in G. rewrite (Fe eq_refl) in G. destruct G.
      * apply in_creates in G as (x & d & y & E). exists x, d, (y ++ push1 c st EvOut). split.
        -- rewrite E, <- app_assoc. reflexivity.
        -- rewrite E, payload_app in B. apply app_eq_nil in B. exact (proj1 B).
Qed.

(* visitors and create frames *)
Lemma asks_visits c s : forall es st, (forall p v q v', es = p ++ EvVisit s v :: q -> ~ In (EvVisit s v') q) ->
  forall x d y, asks c st es = x ++ (s, d) :: y -> ~ In s (map fst x).
Proof.
  induction es as [|e es IH]; intros st Ho x d y E.
  - destruct x; discriminate.
  - assert (N : forall p v q v', es = p ++ EvVisit s v :: q -> ~ In (EvVisit s v') q).
    { intros p v q v' ->. apply (Ho (e :: p) v q v'). reflexivity. }
    assert (In1 : forall es st, In s (map fst (asks c st es)) -> exists v, In (EvVisit s v) es).
    { clear. induction es as [|e es IH]; intros st H; [destruct H|]. cbn [asks] in H. rewrite map_app in H.
      apply in_app_iff in H as [H|H].
      - destruct e; cbn [ask1] in H; try destruct H. destruct (visit_domain (s_maps st) v); [|destruct H].
        destruct (nlen (s_work st) <? work_cap); [|destruct H]. destruct H as [H|[]]. cbn in H. subst s0.
        exists v. left. reflexivity.
      - destruct (IH _ H) as [v G]. exists v. right. exact G. }
    cbn [asks] in E. remember (fst (step c st e)) as st1 eqn:Hst1. clear Hst1.
    destruct (ask1 st e) as [|z l] eqn:Z; [exact (IH _ N x d y E)|].
    destruct e; cbn [ask1] in Z; try discriminate. destruct (visit_domain (s_maps st) v); [|discriminate].
    destruct (nlen (s_work st) <? work_cap); [|discriminate]. injection Z as <- <-. cbn [app] in E.
    destruct x as [|x0 x]; [intros []|]. cbn [app] in E. injection E as <- E. intros [G|G].
    + cbn in G. subst s0.
      destruct (In1 es st1) as [v' Hv'].
      { rewrite E, map_app. apply in_app_iff. right. left. reflexivity. }
      exact (Ho [] v es v' eq_refl Hv').
    + exact (IH _ N x d y E G).
Qed.

(* no create frame goes up when no local visitor asks *)
Lemma no_create_up c ms w s d : whole c ms w -> ~ In (KOpen s) (kevs w) -> ~ In (FCreate s d) (decoded (seen c w)).
Proof.
  intros W Hk H. pose proof (whole_tunnel _ _ _ W) as T.
  destruct (server_sees _ _ _ _ _ _ _ _ _ (tunnel_link _ _ _ _ _ _ _ _ T) (evs w) [] (eq_sym (app_nil_r _))) as [_ P].
  fold (seen c w) in P. apply (prefix_in _ _ _ P) in H. apply in_map_iff in H as (f & E & H).
  destruct f; try discriminate. cbn in E. injection E as -> ->.
  apply in_app_iff in H as [H|H].
  - destruct (w_creds _ _ _ W) as [(u & p & -> & _)| ->]; unfold greeting in H; destruct ms; cbn in H;
      repeat match goal with H : _ \/ _ |- _ => destruct H as [H|H]; [discriminate|] | H : False |- _ => destruct H end.
  - destruct (bind_origin c ms (kevs w)) as (_ & _ & _ & _ & F). exact (Hk (F _ _ H)).
Qed.

Lemma evs_at w e1 e e2 : evs w = e1 ++ e :: e2 -> exists p q, w = p ++ AtServer e :: q /\ evs p = e1.
Proof.
  revert e1. induction w as [|j w IH]; intros e1 E; [destruct e1; discriminate|].
  destruct j as [e0|e0]; cbn [evs flat_map app] in E.
  - destruct e1 as [|y e1]; cbn [app] in E; injection E as -> E.
    + exists [], w. split; reflexivity.
    + destruct (IH e1 E) as (p & q & -> & Hp). exists (AtServer y :: p), q. split; [reflexivity|].
      cbn [evs flat_map app]. rewrite <- Hp. reflexivity.
  - destruct (IH e1 E) as (p & q & -> & Hp). exists (AtClient e0 :: p), q. split; [reflexivity|exact Hp].
Qed.

(* the binding of a stream at the client follows its create frame at once *)
Lemma bind_after_create c ms s h : forall es a b, snd (krun (k_init c ms) es) = a ++ QBind s h :: b -> ~ In (KOpen s) es ->
  exists a' d, a = a' ++ [QDecoded (FCreate s d)].
Proof.
  induction es as [|e es IH] using rev_ind; intros a b E Hk.
  - destruct a; discriminate.
  - rewrite krun_app in E. cbn [snd] in E. rewrite krun_cons in E. cbn [krun snd] in E. rewrite app_nil_r in E.
    assert (Hk' : ~ In (KOpen s) es) by (intros G; apply Hk, in_app_iff; left; exact G).
    destruct (bind_origin c ms es) as (_ & B & _ & D & _).
    set (st := fst (krun (k_init c ms) es)) in *.
    assert (R : forall l, snd (kstep st e) = l ++ QBind s h :: b -> a = snd (krun (k_init c ms) es) ++ l ->
      exists a' d, a = a' ++ [QDecoded (FCreate s d)]).
    { intros l E1 E2. destruct (kb_bind _ _ (kbinds_step st e D) s h l b E1) as [[d G]|(d & o & G)].
      - destruct (Hk' (B _ G)).
      - exists (snd (krun (k_init c ms) es) ++ o), d. rewrite E2, G, app_assoc. reflexivity. }
    apply app_eq_app in E as (l & [[E1 E2]|[E1 E2]]).
    + destruct l as [|y l].
      * rewrite app_nil_r in E1. apply (R []); [symmetry; exact E2|rewrite app_nil_r; symmetry; exact E1].
      * cbn in E2. injection E2 as <- E2. exact (IH a l E1 Hk').
    + exact (R l E2 E1).
Qed.

Lemma public_create fs x s d y : map public fs = x ++ FCreate s d :: y ->
  exists x' y', fs = x' ++ FCreate s d :: y' /\ map public x' = x.
Proof.
  revert x. induction fs as [|f fs IH]; intros x E; [destruct x; discriminate|].
  destruct x as [|x0 x]; cbn [map app] in E; injection E as E1 E.
  - destruct f; try discriminate. cbn in E1. injection E1 as -> ->. exists [], fs. split; reflexivity.
  - destruct (IH x E) as (x' & y' & -> & H). exists (f :: x'), y'. split; [reflexivity|]. cbn [map]. rewrite E1, H. reflexivity.
Qed.

Lemma creates_once c s es x d y : (forall p v q v', es = p ++ EvVisit s v :: q -> ~ In (EvVisit s v') q) ->
  pushed c (s_init c) es = x ++ FCreate s d :: y -> ~ In s (map fst (creates x)).
Proof.
  intros Ho E. destruct (pushed_facts c es (s_init c)) as (_ & F & _); [constructor|].
  rewrite E, creates_app in F. cbn [creates flat_map app] in F. rewrite <- app_assoc in F.
  apply (asks_visits c s es (s_init c) Ho (creates x) d (flat_map (fun f => match f with FCreate s1 d1 => [(s1, d1)] | _ => [] end) y ++ works (fst (run c (s_init c) es)))).
  symmetry. exact F.
Qed.

Lemma early_silent_client c ms w s a h b : whole c ms w -> kseen c ms w = a ++ QBind s h :: b ->
  ~ In (KOpen s) (kevs w) -> creates_first c w -> once s w -> payload s (kdecoded a) = [].
Proof.
  intros W E Hk Hf Ho. destruct (bind_after_create c ms s h _ _ _ E Hk) as (a' & d & ->).
  pose proof (whole_tunnel _ _ _ W) as T.
  pose proof (client_sees _ _ _ _ _ _ _ _ _ (tunnel_link _ _ _ _ _ _ _ _ T)) as [[more P] _].
  rewrite E, !kdecoded_app, <- !app_assoc in P. cbn [kdecoded flat_map app] in P.
  apply public_create in P as (x & y & P & Px).
  rewrite kdecoded_app, payload_app. cbn. rewrite app_nil_r.
  change (flat_map _ a') with (kdecoded a'). rewrite <- Px, payload_public.
  destruct (data_after_create c s (evs w)) as (_ & _ & [B|(x1 & d1 & y1 & B & Bx)]).
  - intros e1 e2 Ee. destruct (evs_at _ _ _ _ Ee) as (p & q & Ew & <-). exact (Hf p q Ew).
  - intros d0. exact (no_create_up c ms w s d0 W Hk).
  - rewrite P, payload_app in B. apply app_eq_nil in B. exact (proj1 B).
  - rewrite P in B.
    assert (x1 = x) as <-; [|exact Bx].
    pose proof (creates_once c s (evs w) x d y Ho P) as U1.
    pose proof (creates_once c s (evs w) x1 d1 y1 Ho (eq_trans P B)) as U2.
    apply app_eq_app in B as (l & [[E1 E2]|[E1 E2]]).
    + destruct l as [|z l]; [rewrite app_nil_r in E1; symmetry; exact E1|]. cbn in E2. injection E2 as <- E2.
      exfalso. apply U1. rewrite E1, creates_app, map_app. apply in_app_iff. right. left. reflexivity.
    + destruct l as [|z l]; [rewrite app_nil_r in E1; exact E1|]. cbn in E2. injection E2 as <- E2.
      exfalso. apply U2. rewrite E1, creates_app, map_app. apply in_app_iff. right. left. reflexivity.
Qed.
