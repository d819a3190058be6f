From Verif Require Import Base ProtModel VsModel VsSpec.
Open Scope N_scope.

Lemma vread_app a b : vread (a ++ b) = vread a ++ vread b.
Proof. apply flat_map_app. Qed.
Lemma vsent_app a b : vsent (a ++ b) = vsent a ++ vsent b.
Proof. apply flat_map_app. Qed.
Lemma accepted_app a b : accepted (a ++ b) = accepted a ++ accepted b.
Proof. apply flat_map_app. Qed.
Lemma offered_app a b : offered (a ++ b) = offered a ++ offered b.
Proof. apply flat_map_app. Qed.
Lemma payloads_app a b : payloads (a ++ b) = payloads a ++ payloads b.
Proof. apply flat_map_app. Qed.

(* one poll conserves bytes: what is delivered, buffered and queued *)
Lemma give_conserve n q buf q' buf' o : give n q buf = (q', buf', o) ->
  q' = q /\ vread [o] ++ buf' = buf /\ (exists b, o = WGot b).
Proof.
  unfold give. intros H. injection H as <- <- <-. split; [reflexivity|].
  split; [cbn; rewrite app_nil_r; apply firstn_skipn|eexists; reflexivity].
Qed.

Lemma vpoll_conserve q : forall hung buf n budget q' buf' o,
  vpoll_read q hung buf n budget = (q', buf', o) ->
  exists c, q = c ++ q' /\ vread [o] ++ buf' = buf ++ payloads c /\
    (o = WEof -> buf' = buf ++ payloads c /\
       ((exists c0 f, c = c0 ++ [f] /\ is_end f) \/ (hung = true /\ q' = []))) /\
    (o <> WEof -> Forall (fun f => ~ is_end f) c).
Proof.
  induction q as [|f q IH]; intros hung buf n [|budget] q' buf' o H; cbn [vpoll_read] in H.
  - destruct buf as [|x buf].
    + injection H as <- <- <-. exists []. repeat split; try discriminate. constructor.
    + apply give_conserve in H as (-> & H & b & ->). exists []. cbn [payloads flat_map app]. rewrite app_nil_r.
      repeat split; try assumption; try discriminate. constructor.
  - destruct hung.
    + injection H as <- <- <-. exists []. cbn. rewrite app_nil_r.
      split; [reflexivity|]. split; [reflexivity|]. split; [|intros _; constructor].
      intros _. split; [reflexivity|]. right; split; reflexivity.
    + destruct buf as [|x buf].
      * injection H as <- <- <-. exists []. repeat split; try discriminate. constructor.
      * apply give_conserve in H as (-> & H & b & ->). exists []. cbn [payloads flat_map app]. rewrite app_nil_r.
        repeat split; try assumption; try discriminate. constructor.
  - destruct buf as [|x buf].
    + injection H as <- <- <-. exists []. repeat split; try discriminate. constructor.
    + apply give_conserve in H as (-> & H & b & ->). exists []. cbn [payloads flat_map app]. rewrite app_nil_r.
      repeat split; try assumption; try discriminate. constructor.
  - assert (Hgive : forall b0, ~ is_end f -> b0 = buf ++ payload f -> give n q b0 = (q', buf', o) ->
      exists c, f :: q = c ++ q' /\ vread [o] ++ buf' = buf ++ payloads c /\
        (o = WEof -> buf' = buf ++ payloads c /\
          ((exists c0 f0, c = c0 ++ [f0] /\ is_end f0) \/ (hung = true /\ q' = []))) /\
        (o <> WEof -> Forall (fun f => ~ is_end f) c)).
    { intros b0 Hf -> G. apply give_conserve in G as (-> & G & b & ->). exists [f].
      cbn [payloads flat_map]. rewrite app_nil_r. repeat split; try assumption; try discriminate.
      constructor; [exact Hf|constructor]. }
    assert (Hrec : buf = [] -> payload f = [] -> ~ is_end f ->
      vpoll_read q hung [] n budget = (q', buf', o) ->
      exists c, f :: q = c ++ q' /\ vread [o] ++ buf' = buf ++ payloads c /\
        (o = WEof -> buf' = buf ++ payloads c /\
          ((exists c0 f0, c = c0 ++ [f0] /\ is_end f0) \/ (hung = true /\ q' = []))) /\
        (o <> WEof -> Forall (fun f => ~ is_end f) c)).
    { intros -> Hp Hf G. destruct (IH _ _ _ _ _ _ _ G) as (c & -> & A & B & C).
      exists (f :: c). cbn [payloads flat_map]. rewrite Hp. cbn [app].
      split; [reflexivity|]. split; [exact A|]. split.
      - intros E. destruct (B E) as [B1 B2]. split; [exact B1|].
        destruct B2 as [(c0 & f0 & -> & B3)|B2]; [left; exists (f :: c0), f0; split; [reflexivity|exact B3]|right; exact B2].
      - intros E. constructor; [exact Hf|exact (C E)]. }
    destruct f as [s d|s r|s d|s ms|u p].
    + injection H as <- <- <-. exists [FCreate s d]. cbn. rewrite app_nil_r.
      repeat split; try (intros E; exfalso; apply E; reflexivity).
      left. exists [], (FCreate s d). split; [reflexivity|exact I].
    + injection H as <- <- <-. exists [FClose s r]. cbn. rewrite app_nil_r.
      repeat split; try (intros E; exfalso; apply E; reflexivity).
      left. exists [], (FClose s r). split; [reflexivity|exact I].
    + destruct (buf ++ d) as [|x b0] eqn:Eb.
      * apply app_eq_nil in Eb as [-> ->]. apply Hrec; auto.
      * apply (Hgive (x :: b0)); auto.
    + destruct buf as [|x b0].
      * apply Hrec; auto.
      * apply (Hgive (x :: b0)); auto. cbn. rewrite app_nil_r. reflexivity.
    + destruct buf as [|x b0].
      * apply Hrec; auto.
      * apply (Hgive (x :: b0)); auto. cbn. rewrite app_nil_r. reflexivity.
Qed.

Lemma vrun_app es1 : forall st es2,
  vrun st (es1 ++ es2) =
  (fst (vrun (fst (vrun st es1)) es2), snd (vrun st es1) ++ snd (vrun (fst (vrun st es1)) es2)).
Proof.
  induction es1 as [|e es1 IH]; intros st es2; cbn [vrun app].
  - cbn [fst snd app]. destruct (vrun st es2); reflexivity.
  - destruct (vstep st e) as [st1 o1]. rewrite IH. destruct (vrun st1 es1) as [st2 o2]. cbn [fst snd].
    rewrite app_assoc. reflexivity.
Qed.

(* C12: conservation *)
Lemma vrun_conserve es : forall st st' tr, vrun st es = (st', tr) ->
  vread tr ++ v_read st' ++ payloads (v_chan st')
  = v_read st ++ payloads (v_chan st ++ pushed (v_hung st) es).
Proof.
  induction es as [|e es IH]; intros st st' tr H; cbn [vrun] in H.
  - injection H as <- <-. cbn. rewrite app_nil_r. reflexivity.
  - destruct (vstep st e) as [st1 o1] eqn:E1. destruct (vrun st1 es) as [st2 o2] eqn:E2.
    injection H as <- <-. specialize (IH st1 st2 o2 E2). rewrite vread_app, <- app_assoc, IH. clear IH E2.
    destruct e as [f| |n budget|b r|r| |]; cbn [vstep pushed] in *.
    + destruct (v_hung st) eqn:Eh.
      * injection E1 as <- <-. rewrite Eh. reflexivity.
      * injection E1 as <- <-. cbn [v_read v_chan v_hung set_chan vread flat_map app].
        rewrite Eh, <- app_assoc. reflexivity.
    + injection E1 as <- <-. reflexivity.
    + destruct (vpoll_read (v_chan st) (v_hung st) (v_read st) n budget) as [[q buf] o] eqn:Ep.
      injection E1 as <- <-. apply vpoll_conserve in Ep as (c & Eq & A & _).
      cbn [v_read v_chan v_hung set_chan set_read]. rewrite Eq, app_assoc, A.
      rewrite !payloads_app, <- !app_assoc. reflexivity.
    + destruct r; injection E1 as <- <-; reflexivity.
    + unfold vpoll_flush in E1. destruct (v_write st); [injection E1 as <- <-; reflexivity|].
      destruct r; injection E1 as <- <-; reflexivity.
    + injection E1 as <- <-. reflexivity.
    + injection E1 as <- <-. reflexivity.
Qed.

Lemma vread_prefix id es st tr : vrun (v_init id) es = (st, tr) ->
  is_prefix_of (vread tr) (payloads (pushed false es)).
Proof.
  intros H. apply vrun_conserve in H. cbn [v_init v_read v_chan v_hung app] in H.
  exists (v_read st ++ payloads (v_chan st)). symmetry. exact H.
Qed.

(* C13: at an end of file, exactly the buffered bytes are missing *)
Lemma eof_exact id es n budget st tr :
  vrun (v_init id) es = (st, tr) -> snd (vstep st (VRead n budget)) = [WEof] ->
  exists c rest, pushed false es = c ++ rest /\
    ((exists c0 f, c = c0 ++ [f] /\ is_end f) \/ (rest = [] /\ In VHang es)) /\
    vread tr ++ v_read (fst (vstep st (VRead n budget))) = payloads c.
Proof.
  intros H Heof.
  assert (Hist : forall es st0 st tr, vrun st0 es = (st, tr) ->
     (exists c, v_chan st0 ++ pushed (v_hung st0) es = c ++ v_chan st /\
        vread tr ++ v_read st = v_read st0 ++ payloads c) /\
     (v_hung st = true -> v_hung st0 = true \/ In VHang es)).
  { clear. induction es as [|e es IH]; intros st0 st tr H; cbn [vrun] in H.
    - injection H as <- <-. split; [|auto]. exists []. cbn. rewrite !app_nil_r. split; reflexivity.
    - destruct (vstep st0 e) as [st1 o1] eqn:E1. destruct (vrun st1 es) as [st2 o2] eqn:E2.
      injection H as <- <-. destruct (IH st1 st2 o2 E2) as [(c & A & B) C]. clear IH E2.
      rewrite vread_app, <- app_assoc, B.
      destruct e as [f| |m bud|b r|r| |]; cbn [vstep pushed] in *.
      + destruct (v_hung st0) eqn:Eh; injection E1 as <- <-; cbn [v_hung v_chan v_read set_chan] in *.
        * rewrite Eh in *. split; [exists c; split; [exact A|reflexivity]|auto].
        * rewrite Eh, <- app_assoc in A. split; [exists c; split; [exact A|reflexivity]|].
          intros Hh. destruct (C Hh) as [G|G]; [congruence|right; right; exact G].
      + injection E1 as <- <-. cbn [v_hung v_chan v_read] in *.
        split; [exists c; split; [exact A|reflexivity]|]. intros _. right; left; reflexivity.
      + destruct (vpoll_read _ _ _ _ _) as [[q buf] o] eqn:Ep. injection E1 as <- <-.
        apply vpoll_conserve in Ep as (c' & Eq & A' & _). cbn [v_hung v_chan v_read set_chan set_read] in *.
        split.
        * exists (c' ++ c). rewrite Eq, <- !app_assoc, A. split; [reflexivity|].
          rewrite payloads_app, app_assoc, A', <- app_assoc. reflexivity.
        * intros Hh. destruct (C Hh) as [G|G]; [left; exact G|right; right; exact G].
      + destruct r; injection E1 as <- <-; cbn [v_hung v_chan v_read set_write] in *;
          (split; [exists c; split; [exact A|reflexivity]|]; intros Hh; destruct (C Hh) as [G|G]; [left; exact G|right; right; exact G]).
      + unfold vpoll_flush in E1. destruct (v_write st0); [|destruct r]; injection E1 as <- <-;
          cbn [v_hung v_chan v_read set_write] in *;
          (split; [exists c; split; [exact A|reflexivity]|]; intros Hh; destruct (C Hh) as [G|G]; [left; exact G|right; right; exact G]).
      + injection E1 as <- <-; (split; [exists c; split; [exact A|reflexivity]|]; intros Hh; destruct (C Hh) as [G|G]; [left; exact G|right; right; exact G]).
      + injection E1 as <- <-; (split; [exists c; split; [exact A|reflexivity]|]; intros Hh; destruct (C Hh) as [G|G]; [left; exact G|right; right; exact G]). }
  destruct (Hist _ _ _ _ H) as [(c & A & B) C]. cbn [v_init v_chan v_hung v_read app] in A, B, C.
  cbn [vstep] in *. destruct (vpoll_read _ _ _ _ _) as [[q buf] o] eqn:Ep. cbn [fst snd] in *.
  injection Heof as ->. apply vpoll_conserve in Ep as (c' & Eq & _ & D & _).
  destruct (D eq_refl) as [D1 D2]. cbn [v_read set_read].
  exists (c ++ c'), q. split; [rewrite A, Eq, app_assoc; reflexivity|]. split.
  - destruct D2 as [(c0 & f & -> & Hf)|[Hh ->]].
    + left. exists (c ++ c0), f. split; [rewrite app_assoc; reflexivity|exact Hf].
    + right. split; [reflexivity|]. destruct (C Hh) as [G|G]; [discriminate|exact G].
  - rewrite D1, payloads_app, app_assoc, B. reflexivity.
Qed.

(* reads at least as large as every data frame never leave bytes buffered *)
Lemma vpoll_empty q : forall hung n budget q' buf' o,
  Forall (fun f => nlen (payload f) <= n) q ->
  vpoll_read q hung [] n budget = (q', buf', o) -> buf' = [].
Proof.
  induction q as [|f q IH]; intros hung n [|budget] q' buf' o Hn H; cbn [vpoll_read] in H.
  - injection H as <- <- <-. reflexivity.
  - destruct hung; injection H as <- <- <-; reflexivity.
  - injection H as <- <- <-. reflexivity.
  - inversion Hn as [|? ? Hf Hq]; subst. destruct f as [s d|s r|s d|s ms|u p].
    + injection H as <- <- <-; reflexivity.
    + injection H as <- <- <-; reflexivity.
    + cbn [app] in H. destruct d as [|x d]; [eapply IH; eassumption|].
      unfold give in H. injection H as <- <- <-. cbn [payload] in Hf.
      apply skipn_all2. unfold nlen in *. lia.
    + eapply IH; eassumption.
    + eapply IH; eassumption.
Qed.

Definition big_reads (es : list vev) : Prop :=
  forall n budget f, In (VRead n budget) es -> In (VPush f) es -> nlen (payload f) <= n.

Lemma big_reads_empty es : forall st st' tr,
  big_reads es -> v_read st = [] ->
  (forall n budget f, In (VRead n budget) es -> In f (v_chan st) -> nlen (payload f) <= n) ->
  vrun st es = (st', tr) -> v_read st' = [].
Proof.
  induction es as [|e es IH]; intros st st' tr Hbig Hr Hc H; cbn [vrun] in H.
  - injection H as <- <-. exact Hr.
  - destruct (vstep st e) as [st1 o1] eqn:E1. destruct (vrun st1 es) as [st2 o2] eqn:E2.
    injection H as <- <-.
    assert (Hbig' : big_reads es).
    { intros n b f H1 H2. apply (Hbig n b f); right; assumption. }
    assert (Hc' : forall n b f, In (VRead n b) es -> In f (v_chan st) -> nlen (payload f) <= n).
    { intros n b f H1. apply (Hc n b f). right; exact H1. }
    apply (IH st1 st2 o2 Hbig'); [| |exact E2].
    + destruct e as [f| |n budget|b r|r| |]; cbn [vstep] in E1.
      * destruct (v_hung st); injection E1 as <- <-; exact Hr.
      * injection E1 as <- <-; exact Hr.
      * rewrite Hr in E1. destruct (vpoll_read _ _ _ _ _) as [[q buf] o] eqn:Ep. injection E1 as <- <-.
        apply vpoll_empty in Ep; [exact Ep|]. apply Forall_forall. intros f Hf.
        apply (Hc n budget f); [left; reflexivity|exact Hf].
      * destruct r; injection E1 as <- <-; exact Hr.
      * unfold vpoll_flush in E1. destruct (v_write st); [|destruct r]; injection E1 as <- <-; exact Hr.
      * injection E1 as <- <-; exact Hr.
      * injection E1 as <- <-; exact Hr.
    + intros n b f Hin Hf. destruct e as [g| |n0 budget|b0 r|r| |]; cbn [vstep] in E1.
      * destruct (v_hung st); injection E1 as <- <-; [apply (Hc' n b f); assumption|].
        cbn [v_chan set_chan] in Hf. apply in_app_iff in Hf as [Hf|[<-|[]]]; [apply (Hc' n b f); assumption|].
        apply (Hbig n b g); [right; exact Hin|left; reflexivity].
      * injection E1 as <- <-. apply (Hc' n b f); assumption.
      * destruct (vpoll_read _ _ _ _ _) as [[q buf] o] eqn:Ep. injection E1 as <- <-.
        apply vpoll_conserve in Ep as (c & Eq & _). apply (Hc' n b f); [exact Hin|].
        cbn [v_chan set_chan set_read] in Hf. rewrite Eq. apply in_app_iff; right; exact Hf.
      * destruct r; injection E1 as <- <-; apply (Hc' n b f); assumption.
      * unfold vpoll_flush in E1. destruct (v_write st); [|destruct r]; injection E1 as <- <-; apply (Hc' n b f); assumption.
      * injection E1 as <- <-; apply (Hc' n b f); assumption.
      * injection E1 as <- <-; apply (Hc' n b f); assumption.
Qed.

Lemma eof_complete id es n budget st tr :
  big_reads (es ++ [VRead n budget]) -> vrun (v_init id) es = (st, tr) ->
  snd (vstep st (VRead n budget)) = [WEof] ->
  exists c rest, pushed false es = c ++ rest /\
    ((exists c0 f, c = c0 ++ [f] /\ is_end f) \/ (rest = [] /\ In VHang es)) /\
    vread tr = payloads c.
Proof.
  intros Hbig H Heof. destruct (eof_exact _ _ _ _ _ _ H Heof) as (c & rest & A & B & C).
  exists c, rest. split; [exact A|]. split; [exact B|].
  assert (E : v_read (fst (vstep st (VRead n budget))) = []).
  { apply (big_reads_empty (es ++ [VRead n budget]) (v_init id) _ (tr ++ [WEof]) Hbig); [reflexivity|intros ? ? ? ? []|].
    rewrite vrun_app, H. cbn [fst snd vrun]. destruct (vstep st (VRead n budget)) as [st1 o1].
    cbn [fst snd] in *. rewrite Heof. reflexivity. }
  rewrite E, app_nil_r in C. exact C.
Qed.

Lemma vpoll_kind q : forall hung buf n budget,
  let o := snd (vpoll_read q hung buf n budget) in o = WPend \/ o = WEof \/ exists b, o = WGot b.
Proof.
  cbv zeta. induction q as [|f q IH]; intros hung buf n [|budget]; cbn [vpoll_read]; unfold give.
  - destruct buf; cbn [snd]; eauto.
  - destruct hung, buf; cbn [snd]; eauto.
  - destruct buf; cbn [snd]; eauto.
  - destruct f as [s d|s r|s d|s ms|u p]; cbn [snd]; eauto.
    + destruct (buf ++ d); cbn [snd]; eauto.
    + destruct buf; cbn [snd]; eauto.
    + destruct buf; cbn [snd]; eauto.
Qed.

(* C14: what is sent is exactly what was passed to write, retries included *)
Lemma vwrite_conserve es : forall st st' tr, vrun st es = (st', tr) ->
  payloads (vsent tr) ++ v_write st' = v_write st ++ concat (offered tr) /\
  Forall (data_of (v_id st)) (vsent tr) /\ v_id st' = v_id st.
Proof.
  induction es as [|e es IH]; intros st st' tr H; cbn [vrun] in H.
  - injection H as <- <-. cbn. rewrite app_nil_r. repeat split. constructor.
  - destruct (vstep st e) as [st1 o1] eqn:E1. destruct (vrun st1 es) as [st2 o2] eqn:E2.
    injection H as <- <-. destruct (IH st1 st2 o2 E2) as (A & B & C). clear IH E2.
    rewrite vsent_app, payloads_app, offered_app, concat_app, <- app_assoc, A.
    destruct e as [f| |n budget|b r|r| |]; cbn [vstep] in E1.
    + destruct (v_hung st); injection E1 as <- <-; repeat split; try assumption.
    + injection E1 as <- <-; repeat split; assumption.
    + pose proof (vpoll_kind (v_chan st) (v_hung st) (v_read st) n budget) as Hk.
      destruct (vpoll_read _ _ _ _ _) as [[q buf] o] eqn:Ep. injection E1 as <- <-.
      cbn [snd] in Hk. destruct Hk as [->|[->|[b ->]]]; repeat split; assumption.
    + destruct r; injection E1 as <- <-; cbn [vsent offered flat_map payloads payload v_write set_write concat app v_id];
        rewrite ?app_nil_r, <- ?app_assoc; repeat split; try assumption.
      constructor; [eexists; reflexivity|exact B].
    + unfold vpoll_flush in E1. destruct (v_write st) as [|x w] eqn:Ew; [|destruct r]; injection E1 as <- <-;
        cbn [vsent offered flat_map payloads payload v_write set_write concat app v_id] in *;
        rewrite ?app_nil_r, ?Ew; repeat split; try assumption.
      constructor; [eexists; reflexivity|exact B].
    + injection E1 as <- <-; repeat split; assumption.
    + injection E1 as <- <-; repeat split; assumption.
Qed.

(* without congestion: one frame per write, carrying exactly its bytes *)
Lemma vwrite_once es : forall st st' tr,
  v_write st = [] -> (forall b r, In (VWrite b r) es -> r = RoomYes) -> vrun st es = (st', tr) ->
  vsent tr = map (FData (v_id st)) (accepted tr) /\ v_write st' = [] /\
  accepted tr = flat_map (fun e => match e with VWrite b _ => [b] | _ => [] end) es.
Proof.
  induction es as [|e es IH]; intros st st' tr Hw Hr H; cbn [vrun] in H.
  - injection H as <- <-. repeat split. exact Hw.
  - destruct (vstep st e) as [st1 o1] eqn:E1. destruct (vrun st1 es) as [st2 o2] eqn:E2.
    injection H as <- <-.
    assert (Hr' : forall b r, In (VWrite b r) es -> r = RoomYes) by (intros b r Hin; apply (Hr b r); right; exact Hin).
    assert (G : v_write st1 = [] /\ v_id st1 = v_id st /\
      vsent o1 = map (FData (v_id st)) (accepted o1) /\
      accepted o1 = match e with VWrite b _ => [b] | _ => [] end).
    { destruct e as [f| |n budget|b r|r| |]; cbn [vstep] in E1.
      - destruct (v_hung st); injection E1 as <- <-; repeat split; assumption.
      - injection E1 as <- <-; repeat split; assumption.
      - pose proof (vpoll_kind (v_chan st) (v_hung st) (v_read st) n budget) as Hk.
        destruct (vpoll_read _ _ _ _ _) as [[q buf] o] eqn:Ep. injection E1 as <- <-.
        cbn [snd] in Hk. destruct Hk as [->|[->|[b ->]]]; repeat split; assumption.
      - rewrite (Hr b r (or_introl eq_refl)) in E1. unfold vpoll_write in E1. rewrite Hw in E1.
        injection E1 as <- <-. repeat split.
      - unfold vpoll_flush in E1. rewrite Hw in E1. injection E1 as <- <-. repeat split; assumption.
      - injection E1 as <- <-; repeat split; assumption.
      - injection E1 as <- <-; repeat split; assumption. }
    destruct G as (G1 & G2 & G3 & G4). destruct (IH st1 st2 o2 G1 Hr' E2) as (A & B & C).
    rewrite vsent_app, accepted_app, map_app, G3, A, G2. repeat split; [exact B|].
    cbn [flat_map]. rewrite G4, C. reflexivity.
Qed.

(* ---- bridge -------------------------------------------------------------- *)
(* a tunnel that is gone: nothing is accepted, nothing sent, the buffer only grows *)
Lemma vclosed_grows es : forall st st' tr,
  (forall b r, In (VWrite b r) es -> r = RoomClosed) -> (forall r, In (VFlush r) es -> r = RoomClosed) ->
  vrun st es = (st', tr) ->
  accepted tr = [] /\ vsent tr = [] /\ v_write st' = v_write st ++ written es.
Proof.
  induction es as [|e es IH]; intros st st' tr Hr Hf H; cbn [vrun] in H.
  - injection H as <- <-. cbn. rewrite app_nil_r. repeat split.
  - destruct (vstep st e) as [st1 o1] eqn:E1. destruct (vrun st1 es) as [st2 o2] eqn:E2.
    injection H as <- <-.
    assert (G : accepted o1 = [] /\ vsent o1 = [] /\ v_write st1 = v_write st ++ written [e]).
    { destruct e as [f| |n budget|b r|r| |]; cbn [vstep] in E1; cbn [written flat_map app].
      - destruct (v_hung st); injection E1 as <- <-; rewrite app_nil_r; repeat split.
      - injection E1 as <- <-; rewrite app_nil_r; repeat split.
      - pose proof (vpoll_kind (v_chan st) (v_hung st) (v_read st) n budget) as Hk.
        destruct (vpoll_read _ _ _ _ _) as [[q buf] o] eqn:Ep. injection E1 as <- <-. rewrite app_nil_r.
        cbn [snd] in Hk. destruct Hk as [->|[->|[b ->]]]; repeat split.
      - rewrite (Hr b r (or_introl eq_refl)) in E1. injection E1 as <- <-. rewrite app_nil_r. repeat split.
      - rewrite (Hf r (or_introl eq_refl)) in E1. unfold vpoll_flush in E1.
        destruct (v_write st) eqn:Ew; injection E1 as <- <-; rewrite ?app_nil_r; repeat split; exact Ew.
      - injection E1 as <- <-; rewrite app_nil_r; repeat split.
      - injection E1 as <- <-; rewrite app_nil_r; repeat split. }
    destruct G as (G1 & G2 & G3).
    destruct (IH st1 st2 o2) as (A & B & C);
      [intros b r Hi; apply (Hr b r); right; exact Hi|intros r Hi; apply (Hf r); right; exact Hi|exact E2|].
    rewrite accepted_app, vsent_app, G1, G2, A, B. repeat split. rewrite C, G3, <- app_assoc.
    unfold written. cbn [flat_map]. rewrite app_nil_r. reflexivity.
Qed.

Lemma sock_in_app a b : sock_in (a ++ b) = sock_in a ++ sock_in b.
Proof. apply flat_map_app. Qed.
Lemma sock_out_app a b : sock_out (a ++ b) = sock_out a ++ sock_out b.
Proof. apply flat_map_app. Qed.
Lemma tunnel_in_app a b : tunnel_in (a ++ b) = tunnel_in a ++ tunnel_in b.
Proof. apply flat_map_app. Qed.
Lemma tunnel_out_app a b : tunnel_out (a ++ b) = tunnel_out a ++ tunnel_out b.
Proof. apply flat_map_app. Qed.

Lemma trun_inv (I : tst -> list teff -> Prop) st0 :
  I st0 [] -> (forall st tr e, I st tr -> I (fst (tstep st e)) (tr ++ snd (tstep st e))) ->
  forall es st tr, trun st0 es = (st, tr) -> I st tr.
Proof.
  intros H0 Hs. assert (G : forall es st tr, I st tr -> I (fst (trun st es)) (tr ++ snd (trun st es))).
  { induction es as [|e es IH]; intros st tr H; cbn [trun fst snd].
    - rewrite app_nil_r. exact H.
    - specialize (Hs st tr e H). destruct (tstep st e) as [st1 o1]. cbn [fst snd] in Hs.
      specialize (IH st1 (tr ++ o1) Hs). destruct (trun st1 es) as [st2 o2]. cbn [fst snd] in *.
      rewrite app_assoc. exact IH. }
  intros es st tr H. specialize (G es st0 [] H0). rewrite H in G. exact G.
Qed.

(* the data frames are those before the final close *)
Definition tinv (id : N) (pre : bytes) (st : tst) (tr : list teff) : Prop :=
  t_id st = id /\
  sock_out tr ++ t_write st = payloads (tunnel_in tr) /\
  Forall (data_of id) (t_link st) /\
  exists ds cl, tunnel_out tr = ds ++ cl /\ Forall (data_of id) ds /\
    payloads ds ++ payloads (t_link st) ++ t_read st = pre ++ sock_in tr /\
    match t_phase st with
    | TRun => cl = [] /\ ~ In XCloseFailed tr /\ (forall r, ~ In (XEnd r) tr) /\
              Forall (fun f => ~ is_end f) (tunnel_in tr)
    | TClosing r => cl = [] /\ ~ In XCloseFailed tr /\ (exists tr0, tr = tr0 ++ [XEnd r])
    | TDone r => (cl = [FClose id []] /\ ~ In XCloseFailed tr /\
                  exists tr0, tr = tr0 ++ [XEnd r; XSent (FClose id [])]) \/
                 (cl = [] /\ exists tr0, tr = tr0 ++ [XEnd r; XCloseFailed])
    end.

Lemma loop_top_ok st : t_phase (loop_top st) = t_phase st /\ t_id (loop_top st) = t_id st /\
  t_write (loop_top st) = t_write st /\ t_read (loop_top st) = [] /\
  payloads (t_link (loop_top st)) = payloads (t_link st) ++ t_read st /\
  (Forall (data_of (t_id st)) (t_link st) -> Forall (data_of (t_id st)) (t_link (loop_top st))).
Proof.
  unfold loop_top. destruct (t_read st) as [|x b] eqn:E.
  - rewrite app_nil_r. repeat split; auto.
  - cbn. rewrite payloads_app. cbn. rewrite app_nil_r. repeat split; auto.
    intros H. apply Forall_app. split; [exact H|]. constructor; [eexists; reflexivity|constructor].
Qed.

Lemma tinv_step id pre st tr e : tinv id pre st tr -> tinv id pre (fst (tstep st e)) (tr ++ snd (tstep st e)).
Proof.
  intros H. unfold tstep. destruct (t_phase st) as [|r|r] eqn:Hp.
  - assert (H' : tinv id pre (loop_top st) tr).
    { destruct (loop_top_ok st) as (L1 & L2 & L3 & L4 & L5 & L6).
      destruct H as (A & B & C & ds & cl & D & E & F & G). rewrite A in L6.
      unfold tinv. rewrite L1, L2, L3, L4, L5. split; [exact A|]. split; [exact B|].
      split; [apply L6; exact C|]. exists ds, cl. split; [exact D|]. split; [exact E|].
      split; [rewrite app_nil_r; exact F|exact G]. }
    assert (Hp' : t_phase (loop_top st) = TRun) by (destruct (loop_top_ok st) as (L1 & _); congruence).
    clear H Hp. revert H' Hp'. generalize (loop_top st) as s. clear st. intros st H Hp.
    destruct H as (A & B & C & ds & cl & D & E & F & G). rewrite Hp in G.
    destruct G as (-> & G1 & G2 & G3). rewrite app_nil_r in D.
    assert (Hnil : tinv id pre st (tr ++ [])).
    { rewrite app_nil_r. split; [exact A|]. split; [exact B|]. split; [exact C|].
      exists ds, []. rewrite app_nil_r, Hp. repeat split; assumption. }
    assert (Hfin : forall r, tinv id pre (tset (t_read st) (t_write st) (t_link st) (TClosing r) st) (tr ++ [XEnd r])).
    { intros r. unfold tinv. rewrite sock_out_app, tunnel_in_app, tunnel_out_app, sock_in_app. cbn. rewrite !app_nil_r.
      split; [exact A|]. split; [exact B|]. split; [exact C|].
      exists ds, []. rewrite app_nil_r. repeat split; try assumption.
      - intros Hin. apply in_app_iff in Hin as [Hin|[Hin|[]]]; [auto|discriminate].
      - exists tr; reflexivity. }
    (* a step that goes on *)
    assert (Hgo : forall st' o, t_id st' = id -> t_phase st' = TRun ->
        (forall x, In x o -> match x with XEnd _ | XCloseFailed => False | _ => True end) ->
        sock_out tr ++ sock_out o ++ t_write st' = payloads (tunnel_in tr) ++ payloads (tunnel_in o) ->
        Forall (fun f => ~ is_end f) (tunnel_in o) -> Forall (data_of id) (t_link st') ->
        Forall (data_of id) (tunnel_out o) ->
        payloads ds ++ payloads (tunnel_out o) ++ payloads (t_link st') ++ t_read st' = pre ++ sock_in tr ++ sock_in o ->
        tinv id pre st' (tr ++ o)).
    { intros st' o Hid Hph Ho H1 H2 H3 H4 H5. unfold tinv.
      rewrite sock_out_app, tunnel_in_app, tunnel_out_app, sock_in_app, payloads_app, Hph, <- app_assoc.
      split; [exact Hid|]. split; [exact H1|]. split; [exact H3|].
      exists (ds ++ tunnel_out o), []. rewrite D, app_nil_r. split; [reflexivity|].
      split; [apply Forall_app; split; assumption|]. split; [rewrite payloads_app, <- app_assoc; exact H5|].
      split; [reflexivity|]. split; [|split].
      - intros Hin. apply in_app_iff in Hin as [Hin|Hin]; [auto|exact (Ho _ Hin)].
      - intros r Hin. apply in_app_iff in Hin as [Hin|Hin]; [exact (G2 r Hin)|exact (Ho _ Hin)].
      - apply Forall_app. split; assumption. }
    destruct e as [|b| | |n| |f| |ok|ok].
    + exact Hnil.
    + destruct b as [|x b]; [apply Hfin|]. apply Hgo; cbn [fst snd t_id tset t_phase t_write t_link t_read
         sock_in sock_out tunnel_in tunnel_out flat_map payloads app]; rewrite ?app_nil_r; try assumption; try reflexivity; try constructor.
      * intros y [<-|[]]. exact I.
      * unfold payloads in *. rewrite !app_assoc. rewrite !app_assoc in F. rewrite F. reflexivity.
    + apply Hfin.
    + apply Hfin.
    + destruct (t_write st) as [|x w] eqn:Ew; [exact Hnil|].
      apply Hgo; cbn [fst snd t_id tset t_phase t_write t_link t_read
         sock_in sock_out tunnel_in tunnel_out flat_map payloads app]; rewrite ?app_nil_r; try assumption; try reflexivity; try constructor.
      * intros y [<-|[]]. exact I.
      * rewrite firstn_skipn. exact B.
    + destruct (t_write st); [exact Hnil|apply Hfin].
    + destruct f as [s d|s r|s d|s ms|u p].
      * unfold tinv. cbn [fst snd t_id tset t_phase t_write t_link t_read].
        rewrite sock_out_app, tunnel_in_app, tunnel_out_app, sock_in_app, payloads_app. cbn. rewrite !app_nil_r.
        split; [exact A|]. split; [exact B|]. split; [exact C|].
        exists ds, []. rewrite app_nil_r. repeat split; try assumption.
        -- intros Hin. apply in_app_iff in Hin as [Hin|[Hin|[Hin|[]]]]; [auto|discriminate|discriminate].
        -- exists (tr ++ [XRecv (FCreate s d)]). rewrite <- app_assoc. reflexivity.
      * unfold tinv. cbn [fst snd t_id tset t_phase t_write t_link t_read].
        rewrite sock_out_app, tunnel_in_app, tunnel_out_app, sock_in_app, payloads_app. cbn. rewrite !app_nil_r.
        split; [exact A|]. split; [exact B|]. split; [exact C|].
        exists ds, []. rewrite app_nil_r. repeat split; try assumption.
        -- intros Hin. apply in_app_iff in Hin as [Hin|[Hin|[Hin|[]]]]; [auto|discriminate|discriminate].
        -- exists (tr ++ [XRecv (FClose s r)]). rewrite <- app_assoc. reflexivity.
      * apply Hgo; cbn [fst snd t_id tset t_phase t_write t_link t_read
         sock_in sock_out tunnel_in tunnel_out flat_map payloads payload app]; rewrite ?app_nil_r; try assumption; try reflexivity; try constructor.
        -- intros y [<-|[]]. exact I.
        -- unfold payloads in *. rewrite app_assoc, B. reflexivity.
        -- intros [].
        -- constructor.
      * apply Hgo; cbn [fst snd t_id tset t_phase t_write t_link t_read
         sock_in sock_out tunnel_in tunnel_out flat_map payloads payload app]; rewrite ?app_nil_r; try assumption; try reflexivity; try constructor.
        -- intros y [<-|[]]. exact I.
        -- intros [].
        -- constructor.
      * apply Hgo; cbn [fst snd t_id tset t_phase t_write t_link t_read
         sock_in sock_out tunnel_in tunnel_out flat_map payloads payload app]; rewrite ?app_nil_r; try assumption; try reflexivity; try constructor.
        -- intros y [<-|[]]. exact I.
        -- intros [].
        -- constructor.
    + apply Hfin.
    + destruct (t_link st) as [|f l] eqn:El; [exact Hnil|]. destruct ok; [|apply Hfin].
      inversion C as [|? ? Cf Cl]; subst.
      apply Hgo; cbn [fst snd t_id tset t_phase t_write t_link t_read
         sock_in sock_out tunnel_in tunnel_out flat_map payloads app]; rewrite ?app_nil_r; try assumption; try reflexivity; try constructor.
      * intros y [<-|[]]. exact I.
      * exact Cf.
      * constructor.
      * cbn [payloads flat_map] in F. rewrite <- app_assoc in F. exact F.
    + exact Hnil.
  - destruct H as (A & B & C & ds & cl & D & E & F & G). rewrite Hp in G. destruct G as (-> & G1 & tr0 & ->).
    rewrite app_nil_r in D.
    assert (Hsil : tinv id pre st ((tr0 ++ [XEnd r]) ++ [])).
    { rewrite app_nil_r. split; [exact A|]. split; [exact B|]. split; [exact C|]. exists ds, [].
      rewrite app_nil_r, Hp. repeat split; try assumption. exists tr0; reflexivity. }
    destruct e as [|b| | |n| |f| |ok|ok]; try exact Hsil. cbn [fst snd].
    unfold tinv. rewrite sock_out_app, tunnel_in_app, tunnel_out_app, sock_in_app, D.
    cbn [t_id tset t_write t_link t_read t_phase].
    destruct ok; cbn [sock_out tunnel_in tunnel_out sock_in flat_map]; rewrite ?app_nil_r.
    + split; [exact A|]. split; [exact B|]. split; [exact C|].
      exists ds, [FClose (t_id st) []]. split; [reflexivity|]. split; [exact E|]. split; [exact F|].
      left. rewrite A. split; [reflexivity|]. split.
      * intros Hin. apply in_app_iff in Hin as [Hin|[Hin|[]]]; [auto|discriminate].
      * exists tr0. rewrite <- app_assoc. reflexivity.
    + split; [exact A|]. split; [exact B|]. split; [exact C|].
      exists ds, []. rewrite app_nil_r. split; [reflexivity|]. split; [exact E|]. split; [exact F|].
      right. split; [reflexivity|]. exists tr0. rewrite <- app_assoc. reflexivity.
  - cbn [fst snd]. rewrite app_nil_r. exact H.
Qed.

Lemma tinv_reach id pre es st tr : trun (t_init id pre) es = (st, tr) -> tinv id pre st tr.
Proof.
  apply (trun_inv (tinv id pre)).
  - split; [reflexivity|]. split; [reflexivity|]. split; [constructor|].
    exists [], []. cbn. rewrite app_nil_r. repeat split; try constructor; auto.
  - intros. apply tinv_step; assumption.
Qed.

Lemma bridge id pre es st tr : trun (t_init id pre) es = (st, tr) ->
  is_prefix_of (sock_out tr) (payloads (tunnel_in tr)) /\
  exists ds cl, tunnel_out tr = ds ++ cl /\ Forall (data_of id) ds /\
    is_prefix_of (payloads ds) (pre ++ sock_in tr) /\
    match t_phase st with
    | TDone _ => cl = [FClose id []] \/ (cl = [] /\ In XCloseFailed tr)
    | _ => cl = []
    end.
Proof.
  intros H. apply tinv_reach in H as (A & B & C & ds & cl & D & E & F & G).
  split; [exists (t_write st); symmetry; exact B|].
  exists ds, cl. split; [exact D|]. split; [exact E|].
  split; [exists (payloads (t_link st) ++ t_read st); symmetry; exact F|].
  destruct (t_phase st) as [|r|r].
  - apply G.
  - apply G.
  - destruct G as [(-> & _)|(-> & tr0 & ->)]; [left; reflexivity|].
    right. split; [reflexivity|]. apply in_app_iff. right. right. left. reflexivity.
Qed.

(* exact accounting of what is still inside the bridge *)
Lemma bridge_exact id pre es st tr : trun (t_init id pre) es = (st, tr) ->
  sock_out tr ++ t_write st = payloads (tunnel_in tr) /\
  payloads (tunnel_out tr) ++ payloads (t_link st) ++ t_read st = pre ++ sock_in tr.
Proof.
  intros H. apply tinv_reach in H as (A & B & C & ds & cl & D & E & F & G).
  split; [exact B|]. rewrite D, payloads_app.
  assert (Hc : payloads cl = []).
  { destruct (t_phase st); [destruct G as [-> _]; reflexivity|destruct G as [-> _]; reflexivity|].
    destruct G as [(-> & _)|(-> & _)]; reflexivity. }
  rewrite Hc, app_nil_r. exact F.
Qed.

(* the bridge ends when the socket or the tunnel stream ends *)
Lemma bridge_ends st e : t_phase st = TRun ->
  e = TSockEof \/ e = TSockErr \/ e = THung \/ (exists f, e = TFrame f /\ is_end f) ->
  exists r, t_phase (fst (tstep st e)) = TClosing r /\
    forall ok, t_phase (fst (tstep (fst (tstep st e)) (TCloseSend ok))) = TDone r /\
      (ok = true -> snd (tstep (fst (tstep st e)) (TCloseSend ok)) = [XSent (FClose (t_id st) [])]).
Proof.
  intros Hp He. assert (Hid : t_id (loop_top st) = t_id st) by apply loop_top_ok.
  assert (G : exists r o, tstep st e = (tset (t_read (loop_top st)) (t_write (loop_top st))
      (t_link (loop_top st)) (TClosing r) (loop_top st), o)).
  { unfold tstep. rewrite Hp. destruct He as [->|[->|[->|(f & -> & Hf)]]].
    1-3: eexists; eexists; reflexivity.
    destruct f; try contradiction; eexists; eexists; reflexivity. }
  destruct G as (r & o & ->). exists r. cbn [fst]. split; [reflexivity|].
  intros ok. split; [reflexivity|]. intros ->.
  cbn [tstep tset t_phase snd t_id]. rewrite Hid. reflexivity.
Qed.

(* frames sent fit the wire format *)
Lemma bridge_frames id es st tr : trun (t_init id []) es = (st, tr) ->
  (forall b, In (TSockData b) es -> nlen b <= 20480) ->
  Forall (fun f => nlen (payload f) <= 20480) (tunnel_out tr).
Proof.
  intros H Hb.
  assert (G : forall es st0 st tr, (forall b, In (TSockData b) es -> nlen b <= 20480) ->
    nlen (t_read st0) <= 20480 -> Forall (fun f => nlen (payload f) <= 20480) (t_link st0) ->
    trun st0 es = (st, tr) -> Forall (fun f => nlen (payload f) <= 20480) (tunnel_out tr)).
  { clear. induction es as [|e es IH]; intros st0 st tr Hb Hr Hl H; cbn [trun] in H.
    - injection H as <- <-. constructor.
    - assert (Hb' : forall b, In (TSockData b) es -> nlen b <= 20480) by (intros b Hin; apply Hb; right; exact Hin).
      assert (S : nlen (t_read (fst (tstep st0 e))) <= 20480 /\
        Forall (fun f => nlen (payload f) <= 20480) (t_link (fst (tstep st0 e))) /\
        Forall (fun f => nlen (payload f) <= 20480) (tunnel_out (snd (tstep st0 e)))).
      { unfold tstep. destruct (t_phase st0) as [|r|r].
        - assert (Lr : t_read (loop_top st0) = []) by apply loop_top_ok.
          assert (Ll : Forall (fun f => nlen (payload f) <= 20480) (t_link (loop_top st0))).
          { unfold loop_top. destruct (t_read st0); [exact Hl|]. cbn [t_link tset].
            apply Forall_app; split; [exact Hl|]. constructor; [exact Hr|constructor]. }
          assert (Lr' : nlen (t_read (loop_top st0)) <= 20480) by (rewrite Lr, nlen_nil; lia).
          revert Lr Ll Lr'. generalize (loop_top st0) as s. intros s Lr Ll Lr'.
          assert (Hn : Forall (fun f => nlen (payload f) <= 20480) []) by constructor.
          destruct e as [|b| | |n| |f| |ok|ok]; try (repeat split; assumption).
          + destruct b as [|x b]; [repeat split; assumption|]. cbn [fst snd t_read tset t_link]. rewrite Lr.
            split; [apply (Hb (x :: b)); left; reflexivity|]. split; assumption.
          + destruct (t_write s); repeat split; assumption.
          + destruct (t_write s); repeat split; assumption.
          + destruct f; repeat split; assumption.
          + destruct (t_link s) as [|f l] eqn:El; [repeat split; try assumption; cbn; rewrite El; exact Ll|].
            inversion Ll; subst. destruct ok; repeat split; try assumption; cbn; try (constructor; [assumption|constructor]).
        - destruct e as [|b| | |n| |f| |ok|ok]; try (repeat split; try assumption; constructor).
          cbn. split; [exact Hr|]. split; [exact Hl|]. destruct ok; [constructor; [cbn [payload]; rewrite nlen_nil; lia|constructor]|constructor].
        - repeat split; try assumption; constructor. }
      destruct (tstep st0 e) as [st1 o1]. destruct (trun st1 es) as [st2 o2] eqn:E2. injection H as <- <-.
      destruct S as (S1 & S2 & S3). cbn [fst snd] in *. rewrite tunnel_out_app.
      apply Forall_app. split; [exact S3|]. apply (IH st1 st2 o2 Hb' S1 S2 E2). }
  apply (G es (t_init id []) st tr Hb); [cbn [t_init t_read]; rewrite nlen_nil; lia|constructor|exact H].
Qed.

(* the bridge goes on as long as neither its socket nor its channel ends and no
   end of stream arrives *)
Lemma bridge_goes_on es : forall st st' tr, t_phase st = TRun ->
  (forall f, In (TFrame f) es -> ~ is_end f) ->
  (forall e, In e es -> stops e = false) ->
  trun st es = (st', tr) -> t_phase st' = TRun.
Proof.
  induction es as [|e es IH]; intros st st' tr Hp Hf Hs H; cbn [trun] in H.
  - injection H as <- <-. exact Hp.
  - destruct (tstep st e) as [st1 o1] eqn:E1. destruct (trun st1 es) as [st2 o2] eqn:E2.
    injection H as <- <-.
    apply (IH st1 st2 o2);
      [|intros f Hi; apply Hf; right; exact Hi|intros x Hi; apply Hs; right; exact Hi|exact E2].
    pose proof (Hs e (or_introl eq_refl)) as He.
    destruct (loop_top_ok st) as (L & _). rewrite Hp in L.
    unfold tstep in E1. rewrite Hp in E1. cbv zeta in E1.
    destruct e as [|b| | |n| |f| |ok|ok]; cbn [stops] in He; try discriminate He.
    + injection E1 as <- <-. exact L.
    + destruct b; [discriminate He|]. injection E1 as <- <-. reflexivity.
    + destruct (t_write (loop_top st)); injection E1 as <- <-; [exact L|reflexivity].
    + pose proof (Hf f (or_introl eq_refl)) as Hn.
      destruct f as [s d|s r|s d|s ms|u q]; cbn [is_end] in Hn; try (exfalso; apply Hn; exact I);
        injection E1 as <- <-; first [reflexivity|exact L].
    + destruct ok; [|discriminate He].
      destruct (t_link (loop_top st)); injection E1 as <- <-; [exact L|reflexivity].
    + injection E1 as <- <-. exact L.
Qed.

(* a bridge that has ended writes nothing and sends no data *)
Lemma ended_quiet es : forall st, t_phase st <> TRun ->
  payloads (tunnel_out (snd (trun st es))) = [] /\ sock_out (snd (trun st es)) = [].
Proof.
  induction es as [|e es IH]; intros st P; [split; reflexivity|]. cbn [trun].
  assert (Q : t_phase (fst (tstep st e)) <> TRun /\ (snd (tstep st e) = [] \/ exists x, snd (tstep st e) = [x] /\ (x = XCloseFailed \/ x = XSent (FClose (t_id st) [])))).
  { unfold tstep. destruct (t_phase st) eqn:E; [congruence| |].
    - destruct e as [| | | | | | | | |ok]; cbn; try (rewrite E; split; [discriminate|left; reflexivity]). split; [discriminate|]. right. eexists. split; [reflexivity|]. destruct ok; auto.
    - cbn. rewrite E. split; [discriminate|left; reflexivity]. }
  destruct (tstep st e) as [st1 o1]. cbn [fst snd] in Q. destruct Q as [Q1 Q2]. specialize (IH st1 Q1). destruct (trun st1 es) as [st2 o2]. cbn [snd] in *.
  destruct Q2 as [->|(x & -> & [->| ->])]; cbn; exact IH.
Qed.
