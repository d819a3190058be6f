(* Failed connections, half credentials, ambiguity; bytes up to the visitor. *)
From Coq Require Import String.
From Verif Require Import Base Text ProtModel ProtSpec ProtProofs ProtStream CsModel CsSpec CsProofs
  CsRoute CsOwn CcModel CcSpec CcProofs CcCreate TunSpec TunServer TunClient TunProofs.
Open Scope N_scope.

(* ---- connections that fail --------------------------------------------------- *)
Definition noconn (e : keff) : Prop := match e with QConnect _ _ _ => False | _ => True end.
Lemma noconn_in o s h a : Forall noconn o -> ~ In (QConnect s h a) o.
Proof. intros H Hin. rewrite Forall_forall in H. exact (H _ Hin). Qed.

Lemma ksay_bye_nc m : forall st, Forall noconn (snd (ksay_bye m st)) /\
  k_conn (fst (ksay_bye m st)) = k_conn st /\ k_next (fst (ksay_bye m st)) = k_next st.
Proof.
  induction m as [|[s h] m IH]; intros st; [repeat split; constructor|].
  cbn [ksay_bye]. destruct (kgone h st || _); [apply IH|].
  specialize (IH (kset_box h (k_box st h ++ [FClose s []]) st)).
  destruct (ksay_bye m _) as [st' es]. cbn [fst snd] in *. destruct IH as (I1 & I2 & I3).
  repeat split; try assumption. constructor; [exact I|exact I1].
Qed.

Lemma kconn_step st e :
  (k_conn (fst (kstep st e)) = k_conn st /\ k_next st <= k_next (fst (kstep st e)) /\ Forall noconn (snd (kstep st e))) \/
  (exists s, k_conn (fst (kstep st e)) = (k_next st, s) :: k_conn st /\ k_next (fst (kstep st e)) = k_next st + 1 /\
     forall s' h' a', In (QConnect s' h' a') (snd (kstep st e)) -> s' = s /\ h' = k_next st) \/
  (exists h, e = KConnErr h /\ k_conn (fst (kstep st e)) = remove N.eqb h (k_conn st) /\
     k_next (fst (kstep st e)) = k_next st /\ Forall noconn (snd (kstep st e))).
Proof.
  assert (Z : forall st' o, k_conn st' = k_conn st -> k_next st <= k_next st' -> Forall noconn o ->
     kstep st e = (st', o) ->
     k_conn (fst (kstep st e)) = k_conn st /\ k_next st <= k_next (fst (kstep st e)) /\ Forall noconn (snd (kstep st e))).
  { intros st' o A B C ->. repeat split; assumption. }
  assert (Zc : kstep st e = ktunnel_closed st ->
     k_conn (fst (kstep st e)) = k_conn st /\ k_next st <= k_next (fst (kstep st e)) /\ Forall noconn (snd (kstep st e))).
  { intros E. rewrite E. unfold ktunnel_closed. pose proof (ksay_bye_nc (k_map st) st) as (Q1 & Q2 & Q3).
    destruct (ksay_bye (k_map st) st) as [st' es]. cbn [fst snd] in *.
    split; [exact Q2|]. split; [cbn; rewrite Q3; apply N.le_refl|]. apply Forall_app. split; [exact Q1|repeat constructor]. }
  destruct e as [s|s d|s r|h|h|h| | |b| |n| |].
  - left. cbn [kstep]. destruct (nlen (k_work st) <? work_cap); cbn; repeat split; try constructor; lia.
  - left. cbn [kstep]. destruct (nlen (k_out st) <? out_cap); cbn; repeat split; try constructor; lia.
  - left. cbn [kstep]. destruct (nlen (k_out st) <? out_cap); cbn; repeat split; try constructor; lia.
  - left. cbn [kstep]. destruct (k_box st h); [|destruct (kgone h st)]; cbn; repeat split; repeat constructor; lia.
  - left. cbn; repeat split; repeat constructor; lia.
  - cbn [kstep]. destruct (lookup N.eqb h (k_conn st)) eqn:El; [|left; cbn; repeat split; repeat constructor; lia].
    destruct (nlen (k_out st) <? out_cap); [|left; cbn; repeat split; repeat constructor; lia].
    right; right. exists h. cbn. repeat split; constructor.
  - left. cbn [kstep]. destruct (k_phase st); try (cbn; repeat split; repeat constructor; lia);
      destruct (k_work st) as [|[[? ?] ?] ?]; cbn; repeat split; repeat constructor; lia.
  - left. cbn [kstep]. destruct (k_phase st); try (cbn; repeat split; repeat constructor; lia);
      destruct (k_out st); cbn; repeat split; repeat constructor; lia.
  - destruct (k_phase st) eqn:Hp; destruct b as [|x b];
      try (left; apply Zc; cbn [kstep]; rewrite Hp; reflexivity);
      left; cbn [kstep]; rewrite Hp; cbn; repeat split; repeat constructor; lia.
  - destruct (k_phase st) eqn:Hp;
      try (left; apply Zc; cbn [kstep]; rewrite Hp; reflexivity);
      left; cbn [kstep]; rewrite Hp; cbn; repeat split; repeat constructor; lia.
  - left. cbn [kstep]. destruct (k_phase st); try (cbn; repeat split; repeat constructor; lia);
      destruct (k_wbuf st); cbn; repeat split; repeat constructor; lia.
  - left. cbn [kstep]. destruct (k_phase st); try (cbn; repeat split; repeat constructor; lia);
      destruct (k_wbuf st); cbn; repeat split; repeat constructor; lia.
  - cbn [kstep]. destruct (k_phase st) as [| |f0|x] eqn:Hp; try (left; cbn; repeat split; repeat constructor; lia).
    2:{ left. destruct (nlen (k_out st) <? out_cap); cbn; repeat split; repeat constructor; lia. }
    destruct (decode_frame (k_rbuf st)) as [|f rest|e rest|]; try (left; cbn; repeat split; repeat constructor; lia).
    assert (T : forall h g, k_conn (fst (ktry_send h g (kset_rbuf rest st))) = k_conn st /\
       k_next (fst (ktry_send h g (kset_rbuf rest st))) = k_next st /\ Forall noconn (snd (ktry_send h g (kset_rbuf rest st)))).
    { intros h g. unfold ktry_send. destruct (kgone _ _ || _); cbn; repeat split; repeat constructor. }
    destruct f as [s dom|s r|s d|s ms|u p]; cbn [khandle].
    + destruct (choose _ _) as [m|].
      * destruct (is_proxy m); [left; cbn; repeat split; repeat constructor; lia|].
        destruct (m_local m) as [a|]; [|left; cbn; repeat split; repeat constructor; lia].
        right; left. exists s. cbn. repeat split.
        -- destruct H as [E|[E|[E|[]]]]; try discriminate. injection E as <- _ _. reflexivity.
        -- destruct H as [E|[E|[E|[]]]]; try discriminate. injection E as _ <- _. reflexivity.
      * left. destruct (_ <? out_cap); cbn; repeat split; repeat constructor; lia.
    + left. destruct (s =? 0); [cbn; repeat split; repeat constructor; lia|].
      destruct (lookup _ _ _) as [h|]; [|cbn; repeat split; repeat constructor; lia].
      specialize (T h (FClose s r)). destruct (ktry_send _ _ _) as [st' es]. cbn [fst snd] in *.
      destruct T as (T1 & T2 & T3). repeat split; [exact T1|lia|constructor; [exact I|exact T3]].
    + left. destruct (lookup _ _ _) as [h|]; [|cbn; repeat split; repeat constructor; lia].
      specialize (T h (FData s d)). destruct (ktry_send _ _ _) as [st' es]. cbn [fst snd] in *.
      destruct T as (T1 & T2 & T3). repeat split; [exact T1|lia|constructor; [exact I|exact T3]].
    + left; cbn; repeat split; repeat constructor; lia.
    + left; cbn; repeat split; repeat constructor; lia.
Qed.

Lemma lookup_remove_ne h h' (m : list (N * N)) : h' <> h -> lookup N.eqb h (remove N.eqb h' m) = lookup N.eqb h m.
Proof.
  intros Hn. induction m as [|[a b] m IH]; [reflexivity|]. cbn [remove lookup].
  destruct (N.eqb_spec h' a) as [->|Ha].
  - rewrite IH. destruct (N.eqb_spec h a); [congruence|reflexivity].
  - cbn [lookup]. rewrite IH. reflexivity.
Qed.

Lemma pending_conn c ms es : forall s h a,
  In (QConnect s h a) (snd (krun (k_init c ms) es)) ->
  h < k_next (fst (krun (k_init c ms) es)) /\
  (~ In (KConnErr h) es -> lookup N.eqb h (k_conn (fst (krun (k_init c ms) es))) = Some s).
Proof.
  induction es as [|e es IH] using rev_ind; intros s h a Hin; [destruct Hin|].
  rewrite krun_app in Hin |- *. cbn [fst snd] in *. rewrite krun_cons in Hin |- *. cbn [fst snd krun] in *.
  rewrite app_nil_r in Hin. set (st1 := fst (krun (k_init c ms) es)) in *.
  assert (Hne : ~ In (KConnErr h) (es ++ [e]) -> ~ In (KConnErr h) es /\ e <> KConnErr h).
  { intros H. split; [intros Hi; apply H, in_app_iff; left; exact Hi|].
    intros ->. apply H, in_app_iff. right; left; reflexivity. }
  apply in_app_iff in Hin as [Hin|Hin].
  - destruct (IH s h a Hin) as [I1 I2].
    destruct (kconn_step st1 e) as [(A & B & _)|[(s0 & A & B & _)|(h0 & -> & A & B & _)]].
    + split; [lia|]. intros H. apply Hne in H as [H _]. rewrite A. auto.
    + split; [lia|]. intros H. apply Hne in H as [H _]. rewrite A. cbn [lookup].
      destruct (N.eqb_spec h (k_next st1)); [lia|auto].
    + split; [lia|]. intros H. apply Hne in H as [H1 H2]. rewrite A, lookup_remove_ne by congruence. auto.
  - destruct (kconn_step st1 e) as [(_ & _ & C)|[(s0 & A & B & C)|(h0 & _ & _ & _ & C)]];
      try (exfalso; exact (noconn_in _ _ _ _ C Hin)).
    destruct (C _ _ _ Hin) as [-> ->]. split; [lia|]. intros _. rewrite A. cbn [lookup]. rewrite N.eqb_refl. reflexivity.
Qed.

Lemma failed_connect c ms e1 h e2 s a :
  In (QConnect s h a) (snd (krun (k_init c ms) e1)) -> ~ In (KConnErr h) e1 ->
  nlen (k_out (fst (krun (k_init c ms) e1))) < out_cap ->
  forall st tr, krun (k_init c ms) (e1 ++ KConnErr h :: e2) = (st, tr) ->
  exists l, kwritten tr ++ k_wbuf st = fst (hello c ms) ++ wire l /\ In (FClose s []) (l ++ k_out st).
Proof.
  intros Hin Hno Hroom st tr H.
  exists (kpushed (k_init c ms) (e1 ++ KConnErr h :: e2)).
  pose proof (kwire (e1 ++ KConnErr h :: e2) (k_init c ms)) as W. rewrite H in W. cbn [fst snd] in W.
  split; [exact W|].
  rewrite kpushed_app. set (st1 := fst (krun (k_init c ms) e1)) in *.
  rewrite krun_app in H. fold st1 in H. rewrite krun_cons in H. cbn [fst snd] in H. injection H as Hst _.
  rewrite <- app_assoc. apply in_app_iff. right. cbn [kpushed kpush1 app]. rewrite <- Hst.
  apply kqueued_stays. cbn [kstep].
  pose proof (proj2 (pending_conn c ms e1 s h a Hin) Hno) as Hl. fold st1 in Hl. rewrite Hl.
  replace (nlen (k_out st1) <? out_cap) with true by lia. cbn. apply in_app_iff. right. left. reflexivity.
Qed.

(* ---- only one of the two credentials ------------------------------------------- *)
Definition half (c : creds) : Prop :=
  (c_user c <> None /\ c_pass c = None) \/ (c_user c = None /\ c_pass c <> None).

Lemma half_hello c ms : half c -> fits (FMapping 0 ms) -> exists l, fst (hello c ms) = wire l /\ Forall fits l /\
  Forall (fun f => match f with FToken _ _ => False | _ => True end) l.
Proof.
  intros Hc Hf. unfold hello.
  assert (E : match c_user c, c_pass c with Some u, Some p => encode (FToken u p) | _, _ => ([], None) end = ([], None)).
  { destruct Hc as [[_ ->]|[-> _]]; [destruct (c_user c)|]; reflexivity. }
  rewrite E. unfold wseq. cbn [fst snd app].
  destruct ms as [|m ms]; [exists []; repeat split; constructor|].
  exists [FMapping 0 (m :: ms)]. cbn [wire flat_map]. rewrite app_nil_r.
  split; [reflexivity|]. split; (apply Forall_cons; [|apply Forall_nil]); [exact Hf|exact I].
Qed.

Lemma half_never c ms kes es kst0 ktr st tr :
  half c -> fits (FMapping 0 ms) -> Forall kev_ok kes ->
  krun (k_init c ms) kes = (kst0, ktr) -> run c (s_init c) es = (st, tr) ->
  prefix (bytes_read tr) (kwritten ktr) ->
  (forall e, In e tr -> ~ service e) /\ registered tr = [].
Proof.
  intros Hc Hf Hk Hkr Hr Hp.
  assert (Hc' : c_user c <> None \/ c_pass c <> None).
  { destruct Hc as [[H _]|[_ H]]; [left|right]; exact H. }
  destruct (half_hello c ms Hc Hf) as (g & Hg & Hgf & Hgt).
  pose proof (kwire kes (k_init c ms)) as W. rewrite Hkr in W. cbn [fst snd] in W.
  unfold k_init in W at 1. cbn [k_wbuf] in W. rewrite Hg, <- wire_app in W.
  set (up := g ++ kpushed (k_init c ms) kes) in *.
  pose proof (kfit_run kes (k_init c ms) (kfit_init c ms) Hk) as Hm.
  assert (Hup : Forall fits up).
  { apply Forall_app. split; [exact Hgf|]. eapply Forall_impl; [|exact Hm]. intros f Hx; exact (proj1 Hx). }
  assert (Hnt : Forall (fun f => match f with FToken _ _ => False | _ => True end) up).
  { apply Forall_app. split; [exact Hgt|]. eapply Forall_impl; [|exact Hm]. intros f [_ Hx].
    destruct f; try exact I; contradiction. }
  assert (P : prefix (bytes_read tr) (wire up)).
  { eapply prefix_trans; [exact Hp|]. rewrite <- W. apply prefix_app. }
  assert (S : forall e, In e tr -> ~ service e).
  { destruct (auth_before_service c es st tr Hc' Hr) as [(u & p & fs & Efs & _)|[S _]]; [|exact S].
    exfalso. rewrite (frames_prefix up _ Hup P) in Efs.
    assert (In (FToken u p) (map public up)).
    { apply (prefix_in (map public (complete (nlen (bytes_read tr)) up))); [apply prefix_map, complete_prefix|].
      rewrite Efs. left; reflexivity. }
    apply in_map_iff in H as (f & E & Hin). rewrite Forall_forall in Hnt. specialize (Hnt f Hin).
    destruct f; cbn in E; try discriminate. exact Hnt. }
  split; [exact S|]. unfold registered.
  assert (Hml : Forall mapless tr).
  { rewrite Forall_forall. intros e He. specialize (S e He). destruct e; cbn in *; try exact I. apply S. exact I. }
  apply mapless_fold. exact Hml.
Qed.

(* ---- which mapping ---------------------------------------------------------------- *)
Lemma wanted_meant ms v d : wanted ms v d -> exists m, meant ms v m /\ hits d m /\ In m ms.
Proof.
  destruct v as [host|mode]; cbn [wanted meant].
  - intros (-> & m & Hin & E). exists m. repeat split; try assumption. left; exact E.
  - intros (a & m & b & -> & E & Hb & ->). exists m. split; [exists a, b; repeat split; assumption|].
    split; [right; reflexivity|apply in_app_iff; right; left; reflexivity].
Qed.
Lemma unambiguous_meant ms v d m : unambiguous ms -> wanted ms v d -> serves ms d m -> meant ms v m.
Proof.
  intros Hu Hw (a & b & E & Hh & Hb). destruct (wanted_meant ms v d Hw) as (m1 & Hm & Hh1 & Hin).
  assert (m1 = m) as ->; [|exact Hm]. rewrite E in Hin. apply in_app_iff in Hin as [Hin|[<-|Hin]]; [|reflexivity|].
  - exfalso. apply in_split in Hin as (a1 & a2 & ->). rewrite <- app_assoc in E. cbn [app] in E.
    destruct (Hu _ _ _ _ _ E) as (N1 & N2 & N3 & N4). destruct Hh as [H1|H1], Hh1 as [H2|H2]; congruence.
  - exfalso. rewrite Forall_forall in Hb. exact (Hb m1 Hin Hh1).
Qed.
