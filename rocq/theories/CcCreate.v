(* What the trace shows after each create frame, and before each connection. *)
From Coq Require Import String.
From Verif Require Import Base Text ProtModel CsModel CsSpec CcModel CcSpec CcProofs.
Open Scope N_scope.

Definition outcome (ms : list mapping) (s : N) (dom : option key) (b : list keff) : Prop :=
  (exists m h x b', serves ms (asked dom) m /\ b = QBind s h :: x :: b' /\
     ((is_proxy m = true /\ x = QProxy s h m) \/
      (is_proxy m = false /\ exists a, m_local m = Some a /\ x = QConnect s h a) \/
      (is_proxy m = false /\ m_local m = None /\ x = QNoAddr s h))) \/
  (Forall (fun m => ~ hits (asked dom) m) ms /\ exists b', b = QReject s :: b').
Definition waiting (ms : list mapping) (s : N) (dom : option key) (b : list keff) (st : kst) : Prop :=
  Forall (fun m => ~ hits (asked dom) m) ms /\ (forall o, In o b -> ~ kloop_work o) /\
  k_phase st = KStuck (FClose s []) /\ out_cap <= nlen (k_out st).

Definition origin (x : keff) (a : list keff) : Prop :=
  match x with
  | QConnect s h _ | QProxy s h _ | QNoAddr s h =>
    exists a' dom, a = a' ++ [QDecoded (FCreate s dom); QBind s h]
  | QReject s => exists a' dom, a = a' ++ [QDecoded (FCreate s dom)]
  | _ => True
  end.

Definition cinv (ms : list mapping) (st : kst) (tr : list keff) : Prop :=
  k_maps st = ms /\
  (forall f, k_phase st = KStuck f -> out_cap <= nlen (k_out st)) /\
  (forall a s dom b, tr = a ++ QDecoded (FCreate s dom) :: b ->
     outcome ms s dom b \/ waiting ms s dom b st) /\
  (forall a x b, tr = a ++ x :: b -> origin x a).

Lemma split_app {A} (t o a b : list A) x :
  t ++ o = a ++ x :: b ->
  (exists b1, t = a ++ x :: b1 /\ b = b1 ++ o) \/ (exists a2, o = a2 ++ x :: b /\ a = t ++ a2).
Proof.
  revert a; induction t as [|y t IH]; intros a H; cbn in H.
  - right. exists a. split; [exact H|reflexivity].
  - destruct a as [|z a]; cbn in H.
    + injection H as -> <-. left. exists t. split; reflexivity.
    + injection H as -> H. destruct (IH a H) as [(b1 & -> & ->)|(a2 & -> & ->)].
      * left. exists b1. split; reflexivity.
      * right. exists a2. split; reflexivity.
Qed.

Lemma outcome_app ms s dom b o : outcome ms s dom b -> outcome ms s dom (b ++ o).
Proof.
  intros [(m & h & x & b' & H1 & -> & H3)|(H1 & b' & ->)].
  - left. exists m, h, x, (b' ++ o). repeat split; assumption.
  - right. split; [exact H1|]. exists (b' ++ o). reflexivity.
Qed.

Definition cplain (e : keff) : Prop :=
  match e with
  | QDecoded (FCreate _ _) | QConnect _ _ _ | QProxy _ _ _ | QNoAddr _ _ | QReject _ => False
  | _ => True
  end.

Lemma cplain_split o a x b : Forall cplain o -> o = a ++ x :: b -> cplain x.
Proof. intros H ->. apply Forall_app in H as [_ H]. inversion H; assumption. Qed.

Lemma cinv_plain ms st tr st' o :
  cinv ms st tr -> Forall cplain o -> k_maps st' = k_maps st ->
  (forall f, k_phase st <> KStuck f) -> (forall f, k_phase st' <> KStuck f) ->
  cinv ms st' (tr ++ o).
Proof.
  intros (H1 & H2 & H3 & H4) Ho Em Hns Hns'. split; [congruence|].
  split; [intros f E; destruct (Hns' f E)|]. split.
  - intros a s dom b E. apply split_app in E as [(b1 & E & ->)|(a2 & E & ->)].
    + destruct (H3 _ _ _ _ E) as [G|G]; [left; apply outcome_app; exact G|].
      destruct G as (_ & _ & G & _). destruct (Hns _ G).
    + apply cplain_split in E; [|exact Ho]. destruct E.
  - intros a x b E. apply split_app in E as [(b1 & E & ->)|(a2 & E & ->)].
    + exact (H4 _ _ _ E).
    + apply cplain_split in E; [|exact Ho]. destruct x; cbn in *; try contradiction; exact I.
Qed.

Lemma cinv_stuck ms st tr e f :
  cinv ms st tr -> k_phase st = KStuck f -> cinv ms (fst (kstep st e)) (tr ++ snd (kstep st e)).
Proof.
  intros (H1 & H2 & H3 & H4) Hp.
  destruct (kstuck_step st e f Hp (H2 f Hp)) as (A & B & C).
  assert (Hm : k_maps (fst (kstep st e)) = k_maps st).
  { destruct e; cbn [kstep]; rewrite ?Hp; try reflexivity;
      repeat (match goal with |- context [if ?c then _ else _] => destruct c
                         | |- context [match ?c with _ => _ end] => destruct c end); reflexivity. }
  split; [congruence|]. split; [intros; exact B|]. split.
  - intros a s dom b E. apply split_app in E as [(b1 & E & ->)|(a2 & E & ->)].
    + destruct (H3 _ _ _ _ E) as [G|(G1 & G2 & G3 & G4)]; [left; apply outcome_app; exact G|].
      right. split; [exact G1|]. split; [|split; [congruence|exact B]].
      intros o Hin. apply in_app_iff in Hin as [Hin|Hin]; auto.
    + exfalso. apply (C (QDecoded (FCreate s dom))); [rewrite E; apply in_app_iff; right; left; reflexivity|].
      exact I.
  - intros a x b E. apply split_app in E as [(b1 & E & ->)|(a2 & E & ->)].
    + exact (H4 _ _ _ E).
    + destruct x; cbn; try exact I;
        (exfalso; eapply C; [rewrite E; apply in_app_iff; right; left; reflexivity|exact I]).
Qed.

Lemma ksay_bye_c m : forall st, Forall cplain (snd (ksay_bye m st)) /\
  k_maps (fst (ksay_bye m st)) = k_maps st.
Proof.
  induction m as [|[s h] m IH]; intros st; [split; [constructor|reflexivity]|].
  cbn [ksay_bye]. destruct (kgone h st || negb (nlen (k_box st h) <? handler_cap)); [apply IH|].
  specialize (IH (kset_box h (k_box st h ++ [FClose s []]) st)).
  destruct (ksay_bye m _) as [st' es]. cbn [fst snd] in *. destruct IH as [I1 I2].
  split; [constructor; [exact I|exact I1]|exact I2].
Qed.

Lemma ktry_send_c h f st :
  Forall cplain (snd (ktry_send h f st)) /\ k_maps (fst (ktry_send h f st)) = k_maps st /\
  k_phase (fst (ktry_send h f st)) = k_phase st.
Proof.
  unfold ktry_send. destruct (kgone h st || negb (nlen (k_box st h) <? handler_cap)); cbn [fst snd];
    (split; [repeat constructor|]); split; reflexivity.
Qed.

(* a block that starts with a decoded create *)
Lemma cinv_create ms st tr st' f s dom es :
  cinv ms st tr -> (forall g, k_phase st <> KStuck g) -> k_maps st' = k_maps st ->
  f = FCreate s dom ->
  (forall g, k_phase st' = KStuck g -> out_cap <= nlen (k_out st')) ->
  outcome ms s dom es \/ waiting ms s dom es st' ->
  (forall s' d', ~ In (QDecoded (FCreate s' d')) es) ->
  (forall a x b, es = a ++ x :: b -> forall t, origin x (t ++ QDecoded f :: a)) ->
  cinv ms st' (tr ++ QDecoded f :: es).
Proof.
  intros (H1 & H2 & H3 & H4) Hns Em -> Hst Hout Hno Hor. split; [congruence|]. split; [exact Hst|]. split.
  - intros a s0 d0 b E. apply split_app in E as [(b1 & E & ->)|(a2 & E & ->)].
    + destruct (H3 _ _ _ _ E) as [G|G]; [left; apply outcome_app; exact G|].
      destruct G as (_ & _ & G & _). destruct (Hns _ G).
    + destruct a2 as [|y a2]; cbn in E.
      * injection E as <- <- <-. exact Hout.
      * injection E as _ E. exfalso. apply (Hno s0 d0). rewrite E. apply in_app_iff; right; left; reflexivity.
  - intros a x b E. apply split_app in E as [(b1 & E & ->)|(a2 & E & ->)].
    + exact (H4 _ _ _ E).
    + destruct a2 as [|y a2]; cbn in E.
      * injection E as <- <-. exact I.
      * injection E as <- E. exact (Hor _ _ _ E tr).
Qed.

Lemma cinv_step ms st tr e : cinv ms st tr -> cinv ms (fst (kstep st e)) (tr ++ snd (kstep st e)).
Proof.
  intros H. destruct (k_phase st) as [| |fs|x] eqn:Hp; try (eapply cinv_stuck; eassumption).
  all: assert (Hns : forall g, k_phase st <> KStuck g) by (intros g; rewrite Hp; discriminate).
  all: assert (Hsil : cinv ms st (tr ++ [])) by (rewrite app_nil_r; exact H).
  all: assert (Hpl : forall st' o, Forall cplain o -> k_maps st' = k_maps st ->
         (forall g, k_phase st' <> KStuck g) -> cinv ms st' (tr ++ o))
         by (intros; apply (cinv_plain ms st tr); assumption).
  all: assert (Hcl : cinv ms (fst (ktunnel_closed st)) (tr ++ snd (ktunnel_closed st)))
    by (unfold ktunnel_closed; pose proof (ksay_bye_c (k_map st) st) as [Q1 Q2];
        destruct (ksay_bye (k_map st) st) as [st' es]; cbn [fst snd] in *;
        apply Hpl; [apply Forall_app; split; [exact Q1|repeat constructor]|exact Q2|discriminate]).
  all: destruct e as [s|s d|s rr|h|h|h| | |b| |n| |]; cbn [kstep]; rewrite ?Hp; try exact Hsil; try exact Hcl.
  all: try (repeat match goal with
       | |- context [if ?c then _ else _] => destruct c
       | |- context [match k_box ?z ?h with _ => _ end] => destruct (k_box z h)
       | |- context [match lookup ?a ?h ?m with _ => _ end] => destruct (lookup a h m)
       | |- context [match k_work ?z with _ => _ end] => destruct (k_work z) as [|[[? ?] ?] ?]
       | |- context [match k_out ?z with _ => _ end] => destruct (k_out z)
       | |- context [match k_wbuf ?z with _ => _ end] => destruct (k_wbuf z)
       | b : bytes |- context [match ?b with _ => _ end] => destruct b
       end; first [exact Hsil | exact Hcl |
         (apply Hpl; [repeat constructor|reflexivity|intros g; cbn; try rewrite Hp; discriminate])]).
  destruct (decode_frame (k_rbuf st)) as [|f rest|e rest|];
    try (apply Hpl; [repeat constructor|reflexivity|discriminate]).
  assert (Hps : forall g, k_phase (kset_rbuf rest st) <> KStuck g) by (intros g; cbn; rewrite Hp; discriminate).
  destruct f as [s dom|s rr|s d|s ms'|u p].
  - pose proof (create_effect (FCreate s dom) (kset_rbuf rest st) s dom) as CE.
    assert (Em : k_maps (fst (khandle (FCreate s dom) (kset_rbuf rest st))) = k_maps st /\
      ((forall g, k_phase (fst (khandle (FCreate s dom) (kset_rbuf rest st))) <> KStuck g) \/
       out_cap <= nlen (k_out (fst (khandle (FCreate s dom) (kset_rbuf rest st)))))).
    { cbn [khandle]. destruct (choose _ _) as [m|].
      - destruct (is_proxy m); [|destruct (m_local m)]; (split; [reflexivity|left; exact Hps]).
      - destruct (N.ltb_spec (nlen (k_out (kset_rbuf rest st))) out_cap) as [Hl|Hl];
          (split; [reflexivity|]); [left; exact Hps|right; exact Hl]. }
    destruct (khandle _ _) as [st' es] eqn:Ek. specialize (CE st' es eq_refl eq_refl).
    cbn [fst snd] in *. destruct Em as [Em Est]. cbn [k_maps kset_rbuf] in CE.
    assert (Hst : forall g, k_phase st' = KStuck g -> out_cap <= nlen (k_out st')).
    { intros g E. destruct Est as [Est|Est]; [destruct (Est g E)|exact Est]. }
    assert (Ems : k_maps st = ms) by apply H. rewrite Ems in CE.
    destruct CE as [(m & Hs & -> & _)|(Hn & _ & [[_ ->]|(Ho & Hph & ->)])].
    + apply (cinv_create ms st tr st' (FCreate s dom) s dom); try assumption; try reflexivity.
      * left. left. exists m, (k_next (kset_rbuf rest st)). eexists; exists []. split; [exact Hs|]. split; [reflexivity|].
        destruct (is_proxy m); [left; split; reflexivity|]. right.
        destruct (m_local m) as [ad|]; [left; split; [reflexivity|exists ad; split; reflexivity]|
                                  right; repeat split; reflexivity].
      * intros s' d' [E|[E|[]]]; [discriminate|].
        destruct (is_proxy m); [discriminate|destruct (m_local m); discriminate].
      * intros a x b E t. destruct a as [|y [|z a]]; cbn in E.
        -- injection E as <- <-. exact I.
        -- injection E as <- <- <-. destruct (is_proxy m); [|destruct (m_local m)]; exists t, dom; reflexivity.
        -- injection E as <- <- E. destruct a; discriminate.
    + apply (cinv_create ms st tr st' (FCreate s dom) s dom); try assumption; try reflexivity.
      * left. right. split; [exact Hn|]. exists []. reflexivity.
      * intros s' d' [E|[]]; discriminate.
      * intros a x b E t. destruct a as [|y a]; cbn in E.
        -- injection E as <- <-. exists t, dom; reflexivity.
        -- injection E as <- E. destruct a; discriminate.
    + apply (cinv_create ms st tr st' (FCreate s dom) s dom); try assumption; try reflexivity.
      * right. split; [exact Hn|]. split; [intros o []|]. split; [exact Hph|]. apply (Hst _ Hph).
      * intros s' d' [].
      * intros a x b E. destruct a; discriminate.
  - cbn [khandle]. destruct (s =? 0); [apply Hpl; [repeat constructor|reflexivity|exact Hps]|].
    destruct (lookup _ _ _) as [h|]; [|apply Hpl; [repeat constructor|reflexivity|exact Hps]].
    pose proof (ktry_send_c h (FClose s rr) (kset_rbuf rest st)) as (T1 & T2 & T3).
    destruct (ktry_send h _ _) as [st' es]. cbn [fst snd] in *.
    apply Hpl; [constructor; [exact I|exact T1]|exact T2|rewrite T3; exact Hps].
  - cbn [khandle].
    destruct (lookup _ _ _) as [h|]; [|apply Hpl; [repeat constructor|reflexivity|exact Hps]].
    pose proof (ktry_send_c h (FData s d) (kset_rbuf rest st)) as (T1 & T2 & T3).
    destruct (ktry_send h _ _) as [st' es]. cbn [fst snd] in *.
    apply Hpl; [constructor; [exact I|exact T1]|exact T2|rewrite T3; exact Hps].
  - apply Hpl; [repeat constructor|reflexivity|exact Hps].
  - apply Hpl; [repeat constructor|reflexivity|discriminate].
Qed.

Lemma cinv_reach c ms es st tr : krun (k_init c ms) es = (st, tr) -> cinv ms st tr.
Proof.
  apply (krun_reach (cinv ms)).
  - split; [reflexivity|]. split.
    + intros f. unfold k_init. cbn. destruct (snd (hello c ms)); discriminate.
    + split; [intros a s dom b E|intros a x b E]; destruct a; discriminate.
  - intros. apply cinv_step; assumption.
Qed.

(* ---- the close notice reaches the wire, behind everything queued before ---- *)
Lemma kwritten_app a b : kwritten (a ++ b) = kwritten a ++ kwritten b.
Proof. apply flat_map_app. Qed.
Definition enc (l : list frame) : bytes := flat_map (fun f => fst (encode f)) l.
Definition winv (c : creds) (ms : list mapping) (st : kst) (tr : list keff) : Prop :=
  exists l, kwritten tr ++ k_wbuf st = fst (hello c ms) ++ enc l /\
    (forall s, In (QReject s) tr -> In (FClose s []) (l ++ k_out st)) /\
    (forall f, k_phase st = KStuck f -> exists s, f = FClose s []).

Lemma winv_same c ms st tr st' o : winv c ms st tr -> kwritten o = [] ->
  (forall s, In (QReject s) o -> In (FClose s []) (k_out st')) ->
  k_wbuf st' = k_wbuf st -> (forall f, In f (k_out st) -> In f (k_out st')) ->
  (forall f, k_phase st' = KStuck f -> exists s, f = FClose s []) -> winv c ms st' (tr ++ o).
Proof.
  intros (l & H1 & H2 & H3) Ho Hr Ew Eo Hs. exists l.
  rewrite kwritten_app, Ho, app_nil_r, Ew. split; [exact H1|]. split; [|exact Hs].
  intros s Hin. apply in_app_iff in Hin as [Hin|Hin]; apply in_app_iff.
  - specialize (H2 s Hin). apply in_app_iff in H2 as [H2|H2]; [left|right]; auto.
  - right. auto.
Qed.

Lemma ksay_bye_w m : forall st, kwritten (snd (ksay_bye m st)) = [] /\
  k_wbuf (fst (ksay_bye m st)) = k_wbuf st /\ k_out (fst (ksay_bye m st)) = k_out st /\
  (forall s, ~ In (QReject s) (snd (ksay_bye m st))).
Proof.
  induction m as [|[s h] m IH]; intros st; [repeat split; intros s []|].
  cbn [ksay_bye]. destruct (kgone h st || negb (nlen (k_box st h) <? handler_cap)); [apply IH|].
  specialize (IH (kset_box h (k_box st h ++ [FClose s []]) st)).
  destruct (ksay_bye m _) as [st' es]. cbn [fst snd] in *. destruct IH as (I1 & I2 & I3 & I4).
  repeat split; try assumption. intros s0 [E|E]; [discriminate|exact (I4 s0 E)].
Qed.

Lemma ktry_send_w h f st :
  kwritten (snd (ktry_send h f st)) = [] /\ k_wbuf (fst (ktry_send h f st)) = k_wbuf st /\
  k_out (fst (ktry_send h f st)) = k_out st /\ k_phase (fst (ktry_send h f st)) = k_phase st /\
  (forall s, ~ In (QReject s) (snd (ktry_send h f st))).
Proof.
  unfold ktry_send. destruct (kgone h st || negb (nlen (k_box st h) <? handler_cap)); cbn [fst snd];
    repeat split; intros s [E|[]]; discriminate.
Qed.

Ltac wsame H := apply (winv_same _ _ _ _ _ _ H);
  [reflexivity | intros ? Hin; cbn in Hin; intuition (try discriminate) | reflexivity
  | intros ? Hin; cbn; try (apply in_app_iff; left); exact Hin | cbn; first [discriminate | assumption | idtac]].

Lemma winv_step c ms st tr e : winv c ms st tr -> winv c ms (fst (kstep st e)) (tr ++ snd (kstep st e)).
Proof.
  intros H.
  assert (H3 : forall f, k_phase st = KStuck f -> exists s, f = FClose s []) by (destruct H as (l & _ & _ & H3); exact H3).
  assert (Hsil : winv c ms st (tr ++ [])) by (rewrite app_nil_r; exact H).
  assert (Hcl : winv c ms (fst (ktunnel_closed st)) (tr ++ snd (ktunnel_closed st))).
  { unfold ktunnel_closed. pose proof (ksay_bye_w (k_map st) st) as (Q1 & Q2 & Q3 & Q4).
    destruct (ksay_bye (k_map st) st) as [st' es]; cbn [fst snd] in *.
    apply (winv_same _ _ _ _ _ _ H); cbn; try assumption; try discriminate.
    - rewrite kwritten_app, Q1. reflexivity.
    - intros s Hin. apply in_app_iff in Hin as [Hin|[E|[]]]; [destruct (Q4 s Hin)|discriminate].
    - rewrite Q3. auto. }
  destruct e as [s|s d|s rr|h|h|h| | |b| |n| |]; cbn [kstep].
  - destruct (nlen (k_work st) <? work_cap); [|exact Hsil]. wsame H.
  - destruct (nlen (k_out st) <? out_cap); [|exact Hsil]. wsame H.
  - destruct (nlen (k_out st) <? out_cap); [|exact Hsil]. wsame H.
  - destruct (k_box st h); [exact Hsil|]. destruct (kgone h st); [exact Hsil|]. wsame H.
  - wsame H.
  - destruct (lookup _ _ _); [|exact Hsil]. destruct (nlen (k_out st) <? out_cap); [|exact Hsil]. wsame H.
  - destruct (k_phase st) eqn:Hp; try exact Hsil. destruct (k_work st) as [|[[s0 d0] h0] w]; [exact Hsil|].
    destruct H as (l & A & B & _). exists (l ++ [FCreate s0 d0]).
    rewrite kwritten_app. cbn [kwritten flat_map fst snd k_wbuf kset_phase kset_wbuf kset_map kset_work k_out k_phase].
    unfold enc. rewrite flat_map_app. cbn [flat_map]. rewrite !app_nil_r, !app_assoc, A.
    split; [unfold enc; rewrite <- !app_assoc; reflexivity|]. split; [|discriminate].
    intros s Hin. apply in_app_iff in Hin as [Hin|[E|[]]]; [|discriminate].
    specialize (B s Hin). rewrite !in_app_iff in *. tauto.
  - destruct (k_phase st) eqn:Hp; try exact Hsil. destruct (k_out st) as [|g o] eqn:Eo; [exact Hsil|].
    destruct H as (l & A & B & _). exists (l ++ [g]).
    rewrite kwritten_app. cbn [kwritten flat_map fst snd k_wbuf kset_phase kset_wbuf kset_out k_out k_phase].
    unfold enc. rewrite flat_map_app. cbn [flat_map]. rewrite !app_nil_r, !app_assoc, A.
    split; [unfold enc; rewrite <- !app_assoc; reflexivity|]. split; [|discriminate].
    intros s Hin. specialize (B s Hin). rewrite Eo in B. rewrite !in_app_iff in *. cbn [In] in *. tauto.
  - destruct (k_phase st) eqn:Hp; try exact Hsil. destruct b; [exact Hcl|]. wsame H.
  - destruct (k_phase st) eqn:Hp; try exact Hsil. exact Hcl.
  - destruct (k_phase st) eqn:Hp; try exact Hsil. destruct (k_wbuf st) as [|x w] eqn:Ew; [exact Hsil|].
    destruct H as (l & A & B & _). exists l. rewrite kwritten_app.
    cbn [kwritten flat_map fst snd k_wbuf kset_phase kset_wbuf k_out k_phase].
    rewrite app_nil_r, <- app_assoc, firstn_skipn, <- Ew.
    split; [exact A|]. split; [|discriminate].
    intros s Hin. apply in_app_iff in Hin as [Hin|[E|[]]]; [auto|discriminate].
  - destruct (k_phase st) eqn:Hp; try exact Hsil. destruct (k_wbuf st) eqn:Ew; [exact Hsil|].
    apply (winv_same _ _ _ _ _ _ H); cbn; try reflexivity; try discriminate; auto. intros s [].
  - destruct (k_phase st) as [| |f|x] eqn:Hp; try exact Hsil.
    2:{ destruct (nlen (k_out st) <? out_cap); [|exact Hsil].
        destruct (H3 f eq_refl) as [s ->].
        apply (winv_same _ _ _ _ _ _ H); cbn; try reflexivity; try discriminate.
        - intros s' [E|[]]. injection E as <-. apply in_app_iff; right; left; reflexivity.
        - intros g Hg. apply in_app_iff; left; exact Hg. }
    destruct (decode_frame (k_rbuf st)) as [|f rest|e rest|]; try (wsame H; fail).
    assert (Hps : forall g, k_phase st = KStuck g -> exists s, g = FClose s []) by (rewrite Hp; discriminate).
    destruct f as [s dom|s rr|s d|s ms'|u p]; cbn [khandle].
    + cbn [k_maps kset_rbuf]. destruct (choose _ _) as [m|].
      * destruct (is_proxy m); [|destruct (m_local m)]; wsame H.
      * destruct (_ <? out_cap); (apply (winv_same _ _ _ _ _ _ H); cbn; try reflexivity).
        -- intros s' [E|[E|[]]]; [discriminate|]. injection E as <-. apply in_app_iff; right; left; reflexivity.
        -- intros g Hg. apply in_app_iff; left; exact Hg.
        -- exact Hps.
        -- intros s' [E|[]]; discriminate.
        -- auto.
        -- intros f E. injection E as <-. exists s; reflexivity.
    + destruct (s =? 0); [wsame H|]. destruct (lookup _ _ _) as [h|]; [|wsame H].
      pose proof (ktry_send_w h (FClose s rr) (kset_rbuf rest st)) as (T1 & T2 & T3 & T4 & T5).
      destruct (ktry_send h _ _) as [st' es]. cbn [fst snd] in *.
      apply (winv_same _ _ _ _ _ _ H); [exact T1| |exact T2|rewrite T3; auto|rewrite T4; exact Hps].
      intros s' [E|E]; [discriminate|destruct (T5 s' E)].
    + destruct (lookup _ _ _) as [h|]; [|wsame H].
      pose proof (ktry_send_w h (FData s d) (kset_rbuf rest st)) as (T1 & T2 & T3 & T4 & T5).
      destruct (ktry_send h _ _) as [st' es]. cbn [fst snd] in *.
      apply (winv_same _ _ _ _ _ _ H); [exact T1| |exact T2|rewrite T3; auto|rewrite T4; exact Hps].
      intros s' [E|E]; [discriminate|destruct (T5 s' E)].
    + wsame H.
    + wsame H.
Qed.

Lemma winv_reach c ms es st tr : krun (k_init c ms) es = (st, tr) -> winv c ms st tr.
Proof.
  apply (krun_reach (winv c ms)).
  - exists []. cbn. rewrite app_nil_r. split; [reflexivity|]. split; [intros s []|].
    destruct (snd (hello c ms)); discriminate.
  - intros. apply winv_step; assumption.
Qed.

Lemma close_sent c ms es st tr s : krun (k_init c ms) es = (st, tr) -> In (QReject s) tr ->
  exists l, kwritten tr ++ k_wbuf st = fst (hello c ms) ++ flat_map (fun f => fst (encode f)) l /\
    In (FClose s []) (l ++ k_out st).
Proof.
  intros H Hin. destruct (winv_reach _ _ _ _ _ H) as (l & A & B & _). exists l. split; [exact A|auto].
Qed.

Lemma create_outcome c ms es st tr a s dom b :
  krun (k_init c ms) es = (st, tr) -> tr = a ++ QDecoded (FCreate s dom) :: b ->
  (exists m h x b', serves ms (asked dom) m /\ b = QBind s h :: x :: b' /\
     ((is_proxy m = true /\ x = QProxy s h m) \/
      (is_proxy m = false /\ exists ad, m_local m = Some ad /\ x = QConnect s h ad) \/
      (is_proxy m = false /\ m_local m = None /\ x = QNoAddr s h))) \/
  (Forall (fun m => ~ hits (asked dom) m) ms /\
     ((exists b', b = QReject s :: b') \/
      (k_phase st = KStuck (FClose s []) /\ out_cap <= nlen (k_out st)))).
Proof.
  intros H E. destruct (cinv_reach _ _ _ _ _ H) as (_ & _ & G & _).
  destruct (G _ _ _ _ E) as [[G'|[G1 G2]]|(G1 & _ & G3 & G4)]; [left; exact G'|right|right].
  - split; [exact G1|left; exact G2].
  - split; [exact G1|right; split; assumption].
Qed.
Lemma contact_origin c ms es st tr a s h x b :
  krun (k_init c ms) es = (st, tr) -> tr = a ++ x :: b ->
  (exists ad, x = QConnect s h ad) \/ (exists m, x = QProxy s h m) ->
  exists a' dom, a = a' ++ [QDecoded (FCreate s dom); QBind s h].
Proof.
  intros H E Hx. destruct (cinv_reach _ _ _ _ _ H) as (_ & _ & _ & G).
  specialize (G _ _ _ E). destruct Hx as [[ad ->]|[m ->]]; exact G.
Qed.

(* C11: tries and what became of them *)
Definition klost (tr : list keff) : list (N * frame) :=
  flat_map (fun e => match e with QLost h f => [(h, f)] | _ => [] end) tr.
Lemma nothing_lost c ms es st tr : krun (k_init c ms) es = (st, tr) ->
  (forall h f, ~ In (QLost h f) tr) -> khanded tr = kroute (fun _ => None) tr.
Proof.
  intros H Hn. pose proof (kinv_reach _ _ _ _ _ H) as (H1 & _).
  change (fun _ : N => None) with CsRoute.none. rewrite <- H1. clear H H1. induction tr as [|e tr IH]; [reflexivity|].
  assert (Hn' : forall h f, ~ In (QLost h f) tr) by (intros h f Hin; apply (Hn h f); right; exact Hin).
  specialize (IH Hn'). destruct e; cbn [khanded ktried flat_map app] in *; try exact IH.
  - f_equal. exact IH.
  - exfalso. apply (Hn h f). left; reflexivity.
Qed.

Lemma lost_hist es : forall st h f, In (QLost h f) (snd (krun st es)) ->
  exists e1 e e2, es = e1 ++ e :: e2 /\ let st1 := fst (krun st e1) in
    (kgone h st1 = true \/ handler_cap <= nlen (k_box st1 h)).
Proof.
  induction es as [|e es IH]; intros st h f Hin; [destruct Hin|].
  cbn [krun] in Hin. destruct (kstep st e) as [st1 o1] eqn:E1. destruct (krun st1 es) as [st2 o2] eqn:E2.
  cbn [snd] in Hin. apply in_app_iff in Hin as [Hin|Hin].
  - exists [], e, es. split; [reflexivity|]. cbn. apply (lost_when st e h f). rewrite E1. exact Hin.
  - specialize (IH st1 h f). rewrite E2 in IH. destruct (IH Hin) as (e1 & e' & e2 & -> & G).
    exists (e :: e1), e', e2. split; [reflexivity|]. cbn [krun]. rewrite E1.
    destruct (krun st1 e1) as [st3 o3]. exact G.
Qed.
