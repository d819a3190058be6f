(* The client loop waits for itself only after a create frame for an unmapped domain
   that found the outgoing channel full. *)
From Coq Require Import String.
From Verif Require Import Base Text ProtModel CsModel CsSpec CcModel CcSpec CcProofs CcCreate.
Open Scope N_scope.

Lemma kbye_phase m : forall st, k_phase (fst (ksay_bye m st)) = k_phase st.
Proof.
  induction m as [|[s h] m IH]; intros st; [reflexivity|].
  cbn [ksay_bye]. destruct (kgone h st || negb (nlen (k_box st h) <? handler_cap)); [apply IH|].
  specialize (IH (kset_box h (k_box st h ++ [FClose s []]) st)).
  destruct (ksay_bye m _) as [st' es]. exact IH.
Qed.

Lemma ktry_phase h f st : k_phase (fst (ktry_send h f st)) = k_phase st.
Proof. unfold ktry_send. destruct (kgone h st || _); reflexivity. Qed.

Lemma becomes_stuck st e g : (forall f, k_phase st <> KStuck f) -> k_phase (fst (kstep st e)) = KStuck g ->
  exists s dom, snd (kstep st e) = [QDecoded (FCreate s dom)] /\ g = FClose s [] /\
    choose (k_maps st) (asked dom) = None /\ out_cap <= nlen (k_out (fst (kstep st e))).
Proof.
  intros Hn H.
  assert (K : forall st1, k_phase st1 = k_phase st -> k_phase st1 = KStuck g -> False).
  { intros st1 E1 E2. apply (Hn g). congruence. }
  destruct e as [s|s d|s rr|h|h|h| | |b| |n| |]; cbn [kstep] in *.
  - destruct (nlen (k_work st) <? work_cap); destruct (K _ eq_refl H).
  - destruct (nlen (k_out st) <? out_cap); destruct (K _ eq_refl H).
  - destruct (nlen (k_out st) <? out_cap); destruct (K _ eq_refl H).
  - destruct (k_box st h); [|destruct (kgone h st)]; destruct (K _ eq_refl H).
  - destruct (K _ eq_refl H).
  - destruct (lookup N.eqb h (k_conn st)); [destruct (nlen (k_out st) <? out_cap)|]; destruct (K _ eq_refl H).
  - destruct (k_phase st) as [| |fs|x] eqn:Hp; try (cbn [fst] in H; congruence).
    destruct (k_work st) as [|[[s d] h] w]; cbn [fst] in H; [congruence|discriminate].
  - destruct (k_phase st) as [| |fs|x] eqn:Hp; try (cbn [fst] in H; congruence).
    destruct (k_out st) as [|f o]; cbn [fst] in H; [congruence|discriminate].
  - destruct (k_phase st) as [| |fs|x] eqn:Hp; try (cbn [fst] in H; congruence).
    destruct b; cbn [fst] in H; [|discriminate].
    unfold ktunnel_closed in H. destruct (ksay_bye _ _). discriminate.
  - destruct (k_phase st) as [| |fs|x] eqn:Hp; try (cbn [fst] in H; congruence).
    unfold ktunnel_closed in H. destruct (ksay_bye _ _). discriminate.
  - destruct (k_phase st) as [| |fs|x] eqn:Hp; try (cbn [fst] in H; congruence).
    destruct (k_wbuf st); cbn [fst] in H; [congruence|discriminate].
  - destruct (k_phase st) as [| |fs|x] eqn:Hp; try (cbn [fst] in H; congruence).
    destruct (k_wbuf st); cbn [fst] in H; [congruence|discriminate].
  - destruct (k_phase st) as [| |fs|x] eqn:Hp; try (cbn [fst] in H; congruence).
    destruct (decode_frame (k_rbuf st)) as [|f rest|er rest|]; try discriminate H.
    assert (Hp1 : k_phase (kset_rbuf rest st) = KDecode) by exact Hp.
    destruct f as [s d|s r|s d|s ms|u p]; cbn [khandle] in *; cbn [fst snd] in H.
    + destruct (choose (k_maps (kset_rbuf rest st)) _) as [m|] eqn:Ec.
      * exfalso. destruct (is_proxy m); [cbn in H; congruence|].
        destruct (m_local m); cbn in H; congruence.
      * destruct (nlen (k_out (kset_rbuf rest st)) <? out_cap) eqn:Eo; cbn [fst snd] in *; [cbn in H; congruence|].
        cbn in H. injection H as <-. exists s, d. split; [reflexivity|]. split; [reflexivity|]. split; [exact Ec|].
        cbn in *. lia.
    + exfalso. destruct (s =? 0); [cbn in H; congruence|]. destruct (lookup _ _ _) as [h|]; [|cbn in H; congruence].
      pose proof (ktry_phase h (FClose s r) (kset_rbuf rest st)) as G.
      destruct (ktry_send _ _ _) as [st' es]. cbn [fst] in *. congruence.
    + exfalso. destruct (lookup _ _ _) as [h|]; [|cbn in H; congruence].
      pose proof (ktry_phase h (FData s d) (kset_rbuf rest st)) as G.
      destruct (ktry_send _ _ _) as [st' es]. cbn [fst] in *. congruence.
    + cbn in H. congruence.
    + discriminate.
Qed.

Lemma stuck_only c ms es st tr f : krun (k_init c ms) es = (st, tr) -> k_phase st = KStuck f ->
  exists a s dom b, tr = a ++ QDecoded (FCreate s dom) :: b /\ f = FClose s [] /\
    Forall (fun m => ~ hits (asked dom) m) ms /\ out_cap <= nlen (k_out st) /\
    forall o, In o b -> ~ kloop_work o.
Proof.
  intros H. revert f.
  enough (G : cinv ms st tr /\ forall f, k_phase st = KStuck f ->
    exists a s dom b, tr = a ++ QDecoded (FCreate s dom) :: b /\ f = FClose s [] /\
    Forall (fun m => ~ hits (asked dom) m) ms /\ out_cap <= nlen (k_out st) /\
    forall o, In o b -> ~ kloop_work o) by exact (proj2 G).
  revert es st tr H.
  apply (krun_reach (fun st tr => cinv ms st tr /\ forall f, k_phase st = KStuck f ->
    exists a s dom b, tr = a ++ QDecoded (FCreate s dom) :: b /\ f = FClose s [] /\
    Forall (fun m => ~ hits (asked dom) m) ms /\ out_cap <= nlen (k_out st) /\
    forall o, In o b -> ~ kloop_work o) (k_init c ms)).
  - split; [|intros f; cbn [k_init k_phase]; destruct (snd (hello c ms)); discriminate]. exact (cinv_reach c ms [] (k_init c ms) [] eq_refl).
  - intros st tr e [I J]. split; [apply cinv_step; exact I|]. intros f Hf.
    destruct (k_phase st) as [| |fs|x] eqn:Hp.
    3:{ destruct (J fs eq_refl) as (a & s & dom & b & -> & E & A & B & C).
        destruct (kstuck_step st e fs Hp B) as (D & F & G).
        rewrite D in Hf. injection Hf as <-. exists a, s, dom, (b ++ snd (kstep st e)).
        split; [rewrite <- app_assoc; reflexivity|]. split; [exact E|]. split; [exact A|]. split; [exact F|].
        intros o Ho. apply in_app_iff in Ho as [Ho|Ho]; auto. }
    all: destruct (becomes_stuck st e f) as (s & dom & E & -> & A & B); [intros g; rewrite Hp; discriminate|exact Hf|].
    all: exists tr, s, dom, []; rewrite E; split; [reflexivity|]; split; [reflexivity|]; split;
      [|split; [exact B|intros o []]].
    all: destruct I as [<- _]; apply choose_none; exact A.
Qed.
