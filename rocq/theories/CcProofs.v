From Coq Require Import String.
From Verif Require Import Base Text ProtModel ProtSpec ProtProofs ProtStream ProtRobust
  CsModel CsSpec CsProofs CsRoute CsOwn CcModel CcSpec.
Open Scope N_scope.

Lemma krun_inv (I : kst -> list keff -> Prop) :
  (forall st tr e, I st tr -> I (fst (kstep st e)) (tr ++ snd (kstep st e))) ->
  forall es st tr, I st tr -> I (fst (krun st es)) (tr ++ snd (krun st es)).
Proof.
  intros Hs es. induction es as [|e es IH]; intros st tr H; cbn [krun].
  - cbn [fst snd]. rewrite app_nil_r. exact H.
  - specialize (Hs st tr e H). destruct (kstep st e) as [st1 o1]. cbn [fst snd] in Hs.
    specialize (IH st1 (tr ++ o1) Hs). destruct (krun st1 es) as [st2 o2]. cbn [fst snd] in *.
    rewrite app_assoc. exact IH.
Qed.

Lemma krun_reach (I : kst -> list keff -> Prop) st0 :
  I st0 [] ->
  (forall st tr e, I st tr -> I (fst (kstep st e)) (tr ++ snd (kstep st e))) ->
  forall es st tr, krun st0 es = (st, tr) -> I st tr.
Proof.
  intros H0 Hs es st tr H. pose proof (krun_inv I Hs es st0 [] H0) as G.
  rewrite H in G. exact G.
Qed.

(* ---- choice of the mapping ---------------------------------------------- *)
Lemma hits_b d m : leqb (m_domain m) d || leqb (m_name m) d = true <-> hits d m.
Proof. unfold hits. rewrite orb_true_iff, !leqb_ok. reflexivity. Qed.

Lemma last_match_spec (p : mapping -> bool) ms : forall acc,
  match last_match p ms acc with
  | Some m => (exists a b, ms = a ++ m :: b /\ p m = true /\ Forall (fun x => p x = false) b) \/
              (acc = Some m /\ Forall (fun x => p x = false) ms)
  | None => acc = None /\ Forall (fun x => p x = false) ms
  end.
Proof.
  induction ms as [|m ms IH]; intros acc; cbn [last_match].
  - destruct acc; [right; split; [reflexivity|constructor]|split; [reflexivity|constructor]].
  - destruct (p m) eqn:E.
    + specialize (IH (Some m)). destruct (last_match p ms (Some m)) as [m'|].
      * destruct IH as [(a & b & -> & H1 & H2)|[E' H]].
        -- left. exists (m :: a), b. repeat split; assumption.
        -- left. injection E' as <-. exists [], ms. repeat split; assumption.
      * destruct IH as [E' _]. discriminate.
    + specialize (IH acc). destruct (last_match p ms acc) as [m'|].
      * destruct IH as [(a & b & -> & H1 & H2)|[E' H]].
        -- left. exists (m :: a), b. repeat split; assumption.
        -- right. split; [exact E'|constructor; assumption].
      * destruct IH as [E' H]. split; [exact E'|constructor; assumption].
Qed.

Lemma not_hits d m : leqb (m_domain m) d || leqb (m_name m) d = false -> ~ hits d m.
Proof. intros E H. apply hits_b in H. congruence. Qed.

Lemma choose_some ms d m : choose ms d = Some m -> serves ms d m.
Proof.
  intros E. unfold choose in E. pose proof (last_match_spec (fun m => leqb (m_domain m) d || leqb (m_name m) d) ms None) as H.
  rewrite E in H. destruct H as [(a & b & -> & H1 & H2)|[H _]]; [|discriminate].
  exists a, b. split; [reflexivity|]. split; [apply hits_b; exact H1|].
  eapply Forall_impl; [|exact H2]. intros x Hx. apply not_hits; exact Hx.
Qed.
Lemma choose_none ms d : choose ms d = None -> Forall (fun m => ~ hits d m) ms.
Proof.
  intros E. unfold choose in E. pose proof (last_match_spec (fun m => leqb (m_domain m) d || leqb (m_name m) d) ms None) as H.
  rewrite E in H. destruct H as [_ H]. eapply Forall_impl; [|exact H].
  intros x Hx. apply not_hits; exact Hx.
Qed.

Lemma serves_unique ms d m m' : serves ms d m -> serves ms d m' -> m = m'.
Proof.
  intros (a & b & E & H1 & H2) (a' & b' & E' & H1' & H2'). subst ms.
  revert a' E'. induction a as [|x a IH]; intros a' E'.
  - destruct a' as [|y a']; cbn in E'; [congruence|].
    injection E' as <- ->. rewrite Forall_forall in H2. exfalso.
    apply (H2 m'); [apply in_app_iff; right; left; reflexivity|exact H1'].
  - destruct a' as [|y a']; cbn in E'.
    + injection E' as <- <-. rewrite Forall_forall in H2'. exfalso.
      apply (H2' m); [apply in_app_iff; right; left; reflexivity|exact H1].
    + injection E' as <- E'. apply (IH a' E').
Qed.

(* ---- what a create frame does ------------------------------------------- *)
Lemma create_effect f st s dom st' es : f = FCreate s dom -> khandle f st = (st', es) ->
  (exists m, serves (k_maps st) (asked dom) m /\
     let h := k_next st in
     es = [QDecoded f; QBind s h;
           if is_proxy m then QProxy s h m
           else match m_local m with Some a => QConnect s h a | None => QNoAddr s h end] /\
     k_out st' = k_out st)
  \/
  (Forall (fun m => ~ hits (asked dom) m) (k_maps st) /\ k_map st' = k_map st /\
    ((k_out st' = k_out st ++ [FClose s []] /\ es = [QDecoded f; QReject s]) \/
     (out_cap <= nlen (k_out st) /\ k_phase st' = KStuck (FClose s []) /\ es = [QDecoded f]))).
Proof.
  intros -> Hk. cbn [khandle] in Hk.
  destruct (choose (k_maps st) _) as [m|] eqn:E.
  - apply choose_some in E. left. exists m. split; [exact E|]. cbv zeta.
    destruct (is_proxy m) eqn:Ep; [|destruct (m_local m) eqn:El];
      injection Hk as <- <-; split; reflexivity.
  - apply choose_none in E.
    destruct (N.ltb_spec (nlen (k_out st)) out_cap) as [Hl|Hl]; injection Hk as <- <-; right; (split; [exact E|]); (split; [reflexivity|]).
    + left. split; reflexivity.
    + right. split; [exact Hl|split; reflexivity].
Qed.

(* other streams keep their handlers, unread frames and liveness *)
Lemma create_others f st s dom s' : f = FCreate s dom -> s' <> s ->
  lookup N.eqb s' (k_map (fst (khandle f st))) = lookup N.eqb s' (k_map st) /\
  (forall h, k_box (fst (khandle f st)) h = k_box st h) /\
  (forall h, h <> k_next st -> kgone h (fst (khandle f st)) = kgone h st).
Proof.
  intros -> Hne. cbn [khandle].
  destruct (choose (k_maps st) _) as [m|].
  - assert (L : lookup N.eqb s' (insert N.eqb s (k_next st) (k_map st)) = lookup N.eqb s' (k_map st))
      by (apply lookup_insert_ne; [exact N.eqb_eq|congruence]).
    destruct (is_proxy m); [|destruct (m_local m)]; cbn [fst]; (split; [exact L|]); (split; [reflexivity|]);
      intros h Hh; try reflexivity.
    unfold kgone. cbn [k_gone kset_gone existsb kfresh kset_map].
    destruct (N.eqb_spec h (k_next st)); [congruence|reflexivity].
  - destruct (nlen (k_out st) <? out_cap); repeat split.
Qed.

(* ---- traces ------------------------------------------------------------- *)
Lemma kbytes_read_app a b : kbytes_read (a ++ b) = kbytes_read a ++ kbytes_read b.
Proof. apply flat_map_app. Qed.
Lemma kdecoded_app a b : kdecoded (a ++ b) = kdecoded a ++ kdecoded b.
Proof. apply flat_map_app. Qed.
Lemma kgiven_app h a b : kgiven h (a ++ b) = kgiven h a ++ kgiven h b.
Proof. apply flat_map_app. Qed.
Lemma kmissed_app h a b : kmissed h (a ++ b) = kmissed h a ++ kmissed h b.
Proof. apply flat_map_app. Qed.
Lemma kgot_app h a b : kgot h (a ++ b) = kgot h a ++ kgot h b.
Proof. apply flat_map_app. Qed.
Lemma ktried_app a b : ktried (a ++ b) = ktried a ++ ktried b.
Proof. apply flat_map_app. Qed.

Fixpoint kbound (b : N -> option N) (tr : list keff) : N -> option N :=
  match tr with
  | [] => b
  | QBind s h :: tr' => kbound (rebind b s h) tr'
  | _ :: tr' => kbound b tr'
  end.
Lemma kbound_app b t1 t2 : kbound b (t1 ++ t2) = kbound (kbound b t1) t2.
Proof. revert b; induction t1 as [|e t1 IH]; intros b; [reflexivity|].
       destruct e; cbn [app kbound]; apply IH. Qed.
Lemma kroute_app b t1 t2 : kroute b (t1 ++ t2) = kroute b t1 ++ kroute (kbound b t1) t2.
Proof.
  revert b; induction t1 as [|e t1 IH]; intros b; [reflexivity|].
  destruct e as [f| | | | | | | | | | | |]; cbn [app kbound kroute]; try apply IH.
  destruct f as [s d|s r|s d|s ms|u p]; try apply IH.
  - destruct (s =? 0); [apply IH|]. destruct (b s); rewrite IH; reflexivity.
  - destruct (b s); rewrite IH; reflexivity.
Qed.

(* One invariant for everything that concerns streams. *)
Definition kbinds (tr : list keff) : list (N * N) :=
  flat_map (fun e => match e with QBind s h => [(s, h)] | _ => [] end) tr.
Lemma kbinds_app a b : kbinds (a ++ b) = kbinds a ++ kbinds b.
Proof. apply flat_map_app. Qed.
Definition khandlers (st : kst) (tr : list keff) : list N := map snd (kbinds tr) ++ map snd (k_work st).

Definition kinv (st : kst) (tr : list keff) : Prop :=
  ktried tr = kroute none tr /\
  (forall s, lookup N.eqb s (k_map st) = kbound none tr s) /\
  (forall h, kgot h tr ++ k_box st h = kgiven h tr) /\
  NoDup (khandlers st tr) /\ Forall (fun h => h < k_next st) (khandlers st tr) /\
  (forall s h, In (s, h) (k_map st) -> In (s, h) (kbinds tr)) /\
  (forall h f, In (QBye h f) tr -> In (frame_sock f, h) (kbinds tr)).

(* Effects that are irrelevant to it, in states that agree on what matters. *)
Definition kplain (e : keff) : Prop :=
  match e with
  | QDecoded (FData _ _) | QDecoded (FClose _ _) | QBind _ _ | QPut _ _ | QLost _ _
  | QBye _ _ | QGot _ _ => False
  | _ => True
  end.
Lemma kplain_ok o : Forall kplain o ->
  ktried o = [] /\ (forall b, kroute b o = []) /\ (forall b, kbound b o = b) /\
  (forall h, kgot h o = []) /\ (forall h, kgiven h o = []) /\ kbinds o = [] /\
  (forall h f, ~ In (QBye h f) o).
Proof.
  induction 1 as [|e o He _ (I1 & I2 & I3 & I4 & I5 & I6 & I7)].
  { do 6 (split; [reflexivity|]). intros h f []. }
  destruct e as [f| | | | | | | | | | | |]; try contradiction;
    try (do 6 (split; [assumption|]); intros k0 g0 [E|E]; [discriminate|exact (I7 k0 g0 E)]).
  destruct f; try contradiction;
    do 6 (split; [assumption|]); intros k0 g0 [E|E]; try discriminate; exact (I7 k0 g0 E).
Qed.

Lemma kinv_plain st tr st' o :
  kinv st tr -> Forall kplain o -> k_map st' = k_map st -> k_box st' = k_box st ->
  k_work st' = k_work st -> k_next st' = k_next st -> kinv st' (tr ++ o).
Proof.
  intros (H1 & H2 & H3 & H4 & H5 & H6 & H7) Ho Em Eb Ew En.
  destruct (kplain_ok o Ho) as (I1 & I2 & I3 & I4 & I5 & I6 & I7).
  unfold kinv, khandlers.
  rewrite ktried_app, kroute_app, kbound_app, kbinds_app, I1, I2, I3, I6, !app_nil_r, Em, Eb, Ew, En.
  repeat split; try assumption.
  - intros h. rewrite kgot_app, kgiven_app, I4, I5, !app_nil_r. apply H3.
  - intros h f Hin. apply in_app_iff in Hin as [Hin|Hin]; [exact (H7 h f Hin)|].
    exfalso. exact (I7 h f Hin).
Qed.

(* try_send of a frame that was routed to h *)
Lemma kinv_send st tr h f g :
  kinv st tr -> g = QDecoded f ->
  kroute (kbound none tr) [g] = [(h, f)] ->
  kinv (fst (ktry_send h f st)) (tr ++ g :: snd (ktry_send h f st)).
Proof.
  intros (H1 & H2 & H3 & H4 & H5 & H6 & H7) -> Hr.
  change (QDecoded f :: ?x) with ([QDecoded f] ++ x).
  unfold ktry_send. destruct (kgone h st || negb (nlen (k_box st h) <? handler_cap)); cbn [fst snd];
    unfold kinv, khandlers; rewrite !ktried_app, !kroute_app, !kbound_app, !kbinds_app, Hr;
    cbn [ktried kbinds kbound flat_map app kroute]; rewrite ?app_nil_r;
    (split; [rewrite H1; reflexivity|]); (split; [exact H2|]);
    (split; [|split; [exact H4|split; [exact H5|split; [exact H6|]]]]).
  - intros k. rewrite !kgot_app, !kgiven_app. cbn [kgot kgiven flat_map]. rewrite !app_nil_r. apply H3.
  - intros k g Hin. apply in_app_iff in Hin as [Hin|[E|[E|[]]]]; try discriminate. exact (H7 k g Hin).
  - intros k. rewrite !kgot_app, !kgiven_app. cbn [kgot kgiven flat_map app k_box kset_box].
    rewrite !app_nil_r, <- (H3 k).
    destruct (N.eqb_spec k h) as [->|Hne].
    + rewrite N.eqb_refl, app_assoc. reflexivity.
    + replace (h =? k) with false by lia. rewrite app_nil_r. reflexivity.
  - intros k g Hin. apply in_app_iff in Hin as [Hin|[E|[E|[]]]]; try discriminate. exact (H7 k g Hin).
Qed.

(* binding a handler that was not bound before *)
Lemma kinv_bind st tr s h st' es w :
  kinv st tr -> Forall kplain es -> k_map st' = insert N.eqb s h (k_map st) ->
  k_box st' = k_box st -> k_work st' = w ->
  ((h = k_next st /\ w = k_work st /\ k_next st' = k_next st + 1) \/
   (exists d, k_work st = (s, d, h) :: w) /\ k_next st' = k_next st) ->
  kinv st' (tr ++ QBind s h :: es).
Proof.
  intros (H1 & H2 & H3 & H4 & H5 & H6 & H7) Hes Em Eb Ew Hh.
  destruct (kplain_ok es Hes) as (I1 & I2 & I3 & I4 & I5 & I6 & I7).
  change (QBind s h :: es) with ([QBind s h] ++ es).
  unfold kinv, khandlers. rewrite !ktried_app, !kroute_app, !kbound_app, !kbinds_app, I1, I2, I3, I6.
  cbn [ktried kbinds kbound kroute flat_map app]. rewrite !app_nil_r, Em, Eb, Ew.
  split; [exact H1|]. split.
  { intros x. unfold rebind. destruct (N.eqb_spec x s) as [->|Hne].
    - apply lookup_insert_eq. exact N.eqb_eq.
    - rewrite lookup_insert_ne by (try exact N.eqb_eq; congruence). apply H2. }
  split.
  { intros k. rewrite !kgot_app, !kgiven_app.
    change (kgot k (QBind s h :: es)) with (kgot k es).
    change (kgiven k (QBind s h :: es)) with (kgiven k es).
    rewrite I4, I5, !app_nil_r. apply H3. }
  rewrite map_app, <- app_assoc. cbn [map snd app].
  split; [|split; [|split]].
  - destruct Hh as [(-> & -> & _)|[[d Ed] _]].
    + apply (NoDup_Add (Add_app (k_next st) _ _)). split; [exact H4|].
      intros Hin. rewrite Forall_forall in H5. specialize (H5 _ Hin). lia.
    + unfold khandlers in H4. rewrite Ed in H4. exact H4.
  - destruct Hh as [(-> & -> & ->)|[[d Ed] ->]].
    + apply Forall_forall. intros x Hin. apply in_app_iff in Hin.
      rewrite Forall_forall in H5. unfold khandlers in H5. destruct Hin as [Hin|[<-|Hin]]; [|lia|].
      * specialize (H5 x (in_or_app _ _ _ (or_introl Hin))). lia.
      * specialize (H5 x (in_or_app _ _ _ (or_intror Hin))). lia.
    + unfold khandlers in H5. rewrite Ed in H5. exact H5.
  - intros s0 h0 Hin. apply in_app_iff. apply in_insert in Hin as [E|Hin].
    + injection E as -> ->. right; left; reflexivity.
    + left. apply H6; exact Hin.
  - intros k g Hin. apply in_app_iff in Hin as [Hin|[E|Hin]]; try discriminate.
    + apply in_app_iff. left. exact (H7 k g Hin).
    + exfalso. exact (I7 k g Hin).
Qed.

Lemma ksay_bye_inv m : forall st tr, kinv st tr -> (forall s h, In (s, h) m -> In (s, h) (kbinds tr)) ->
  kinv (fst (ksay_bye m st)) (tr ++ snd (ksay_bye m st)).
Proof.
  induction m as [|[s h] m IH]; intros st tr H Hm; cbn [ksay_bye fst snd].
  { rewrite app_nil_r. exact H. }
  assert (Hm' : forall s h, In (s, h) m -> In (s, h) (kbinds tr)) by (intros; apply Hm; right; assumption).
  destruct (kgone h st || negb (nlen (k_box st h) <? handler_cap)); [apply IH; assumption|].
  assert (H' : kinv (kset_box h (k_box st h ++ [FClose s []]) st) (tr ++ [QBye h (FClose s [])])).
  { destruct H as (H1 & H2 & H3 & H4 & H5 & H6 & H7).
    unfold kinv, khandlers. rewrite ktried_app, kroute_app, kbound_app, kbinds_app.
    cbn [ktried kbinds kbound kroute flat_map app]. rewrite !app_nil_r.
    split; [exact H1|]. split; [exact H2|]. split.
    { intros k. rewrite kgot_app, kgiven_app. cbn [kgot kgiven flat_map k_box kset_box].
      rewrite !app_nil_r, <- (H3 k). destruct (N.eqb_spec k h) as [->|Hne].
      - rewrite N.eqb_refl, app_assoc. reflexivity.
      - replace (h =? k) with false by lia. rewrite app_nil_r. reflexivity. }
    split; [exact H4|]. split; [exact H5|]. split; [exact H6|].
    intros k f Hin. apply in_app_iff in Hin as [Hin|[E|[]]]; [exact (H7 k f Hin)|].
    injection E as <- <-. cbn [frame_sock]. apply Hm. left; reflexivity. }
  assert (Hm2 : forall s0 h0, In (s0, h0) m -> In (s0, h0) (kbinds (tr ++ [QBye h (FClose s [])]))).
  { intros s0 h0 Hin. rewrite kbinds_app. apply in_app_iff. left. apply Hm'. exact Hin. }
  specialize (IH _ _ H' Hm2).
  destruct (ksay_bye m _) as [st' es]. cbn [fst snd] in *.
  rewrite <- app_assoc in IH. exact IH.
Qed.

Lemma ktunnel_closed_inv st tr : kinv st tr ->
  kinv (fst (ktunnel_closed st)) (tr ++ snd (ktunnel_closed st)).
Proof.
  intros H. unfold ktunnel_closed.
  assert (Hm : forall s h, In (s, h) (k_map st) -> In (s, h) (kbinds tr)) by (apply H).
  pose proof (ksay_bye_inv (k_map st) st tr H Hm) as G.
  destruct (ksay_bye (k_map st) st) as [st' es]. cbn [fst snd] in *.
  rewrite app_assoc. apply (kinv_plain st'); [exact G|repeat constructor|reflexivity|reflexivity|reflexivity|reflexivity].
Qed.

Lemma kinv_step st tr e : kinv st tr -> kinv (fst (kstep st e)) (tr ++ snd (kstep st e)).
Proof.
  intros H.
  assert (Hsil : kinv st (tr ++ [])) by (rewrite app_nil_r; exact H).
  assert (Hpl : forall st' o, Forall kplain o -> k_map st' = k_map st -> k_box st' = k_box st ->
     k_work st' = k_work st -> k_next st' = k_next st -> kinv st' (tr ++ o))
    by (intros; apply (kinv_plain st tr); assumption).
  destruct e as [s|s d|s rr|h|h|h| | |b| |n| |]; cbn [kstep].
  - destruct (nlen (k_work st) <? work_cap); [|exact Hsil]. cbn [fst snd].
    destruct H as (H1 & H2 & H3 & H4 & H5 & H6 & H7).
    unfold kinv, khandlers. rewrite app_nil_r. cbn [k_work kfresh kset_work k_next k_map k_box].
    rewrite map_app, app_assoc. cbn [map snd].
    repeat split; try assumption.
    + change (?x ++ [k_next st]) with (x ++ k_next st :: []).
      apply (NoDup_Add (Add_app (k_next st) _ [])). rewrite app_nil_r. split; [exact H4|].
      intros Hin. rewrite Forall_forall in H5. specialize (H5 _ Hin). lia.
    + apply Forall_app. split; [|constructor; [lia|constructor]].
      eapply Forall_impl; [|exact H5]. cbn. intros; lia.
  - destruct (nlen (k_out st) <? out_cap); [|exact Hsil]. apply Hpl; try reflexivity; constructor.
  - destruct (nlen (k_out st) <? out_cap); [|exact Hsil]. apply Hpl; try reflexivity; constructor.
  - destruct (k_box st h) as [|f q] eqn:Eb; [exact Hsil|]. destruct (kgone h st); [exact Hsil|].
    cbn [fst snd]. destruct H as (H1 & H2 & H3 & H4 & H5 & H6 & H7).
    unfold kinv, khandlers. rewrite ktried_app, kroute_app, kbound_app, kbinds_app.
    cbn [ktried kbinds kbound kroute flat_map app]. rewrite !app_nil_r.
    split; [exact H1|]. split; [exact H2|]. split.
    { intros k. rewrite kgot_app, kgiven_app. cbn [kgot kgiven flat_map k_box kset_box].
      rewrite !app_nil_r, <- (H3 k). destruct (N.eqb_spec k h) as [->|Hne].
      - rewrite N.eqb_refl, Eb, <- app_assoc. reflexivity.
      - replace (h =? k) with false by lia. rewrite app_nil_r. reflexivity. }
    split; [exact H4|]. split; [exact H5|]. split; [exact H6|].
    intros k g Hin. apply in_app_iff in Hin as [Hin|[E|[]]]; [exact (H7 k g Hin)|discriminate].
  - apply Hpl; try reflexivity; constructor.
  - destruct (lookup N.eqb h (k_conn st)); [|exact Hsil].
    destruct (nlen (k_out st) <? out_cap); [|exact Hsil]. apply Hpl; try reflexivity; constructor.
  - destruct (k_phase st); try exact Hsil.
    destruct (k_work st) as [|[[s0 d0] h0] w] eqn:Ew; [exact Hsil|].
    apply (kinv_bind st tr s0 h0 _ [] w); [exact H|constructor|reflexivity|reflexivity|reflexivity|].
    right. split; [exists d0; exact Ew|reflexivity].
  - destruct (k_phase st); try exact Hsil.
    destruct (k_out st); [exact Hsil|]. apply Hpl; try reflexivity; constructor.
  - destruct (k_phase st); try exact Hsil.
    destruct b as [|x b]; [apply ktunnel_closed_inv; exact H|].
    apply Hpl; try reflexivity; repeat constructor.
  - destruct (k_phase st); try exact Hsil. apply ktunnel_closed_inv; exact H.
  - destruct (k_phase st); try exact Hsil.
    destruct (k_wbuf st); [exact Hsil|]. apply Hpl; try reflexivity; repeat constructor.
  - destruct (k_phase st); try exact Hsil.
    destruct (k_wbuf st); [exact Hsil|]. apply Hpl; try reflexivity; repeat constructor.
  - destruct (k_phase st) as [| |f|r]; try exact Hsil.
    2:{ destruct (nlen (k_out st) <? out_cap); [|exact Hsil]. apply Hpl; try reflexivity; repeat constructor. }
    destruct (decode_frame (k_rbuf st)) as [|f rest|e rest|];
      try (apply Hpl; try reflexivity; repeat constructor; fail).
    assert (H' : kinv (kset_rbuf rest st) tr).
    { rewrite <- (app_nil_r tr). apply Hpl; try reflexivity; constructor. }
    pose proof H as (_ & H2 & _).
    (* a frame with a bound id, a frame without *)
    assert (Hdel : forall s g h, lookup N.eqb s (k_map st) = Some h ->
        (exists d, g = FData s d) \/ (exists r, g = FClose s r /\ s <> 0) ->
        kinv (fst (ktry_send h g (kset_rbuf rest st)))
          (tr ++ QDecoded g :: snd (ktry_send h g (kset_rbuf rest st)))).
    { intros s g h El Hg. apply kinv_send; [exact H'|reflexivity|].
      rewrite H2 in El. destruct Hg as [[d ->]|[r [-> Hs]]]; cbn [kroute]; rewrite El; [reflexivity|].
      replace (s =? 0) with false by lia. reflexivity. }
    assert (Hno : forall g, kroute (kbound none tr) [QDecoded g] = [] ->
        kinv (kset_rbuf rest st) (tr ++ [QDecoded g])).
    { intros g Hr. destruct H' as (G1 & G2 & G3 & G4 & G5 & G6 & G7).
      unfold kinv, khandlers. rewrite ktried_app, kroute_app, kbound_app, kbinds_app, Hr.
      cbn [ktried kbinds kbound flat_map app]. rewrite !app_nil_r.
      split; [exact G1|]. split; [exact G2|].
      split; [intros k; rewrite kgot_app, kgiven_app; cbn [kgot kgiven flat_map]; rewrite !app_nil_r; apply G3|].
      split; [exact G4|]. split; [exact G5|]. split; [exact G6|].
      intros k g' Hin. apply in_app_iff in Hin as [Hin|[E|[]]]; [exact (G7 k g' Hin)|discriminate]. }
    destruct f as [s dom|s r|s d|s ms|u p]; cbn [khandle].
    + cbn [k_maps kset_rbuf k_out k_next k_map k_gone].
      destruct (choose (k_maps st) _) as [m|].
      * assert (Hd : kinv (kset_rbuf rest st) (tr ++ [QDecoded (FCreate s dom)])).
        { apply Hpl; try reflexivity; repeat constructor. }
        destruct (is_proxy m); [|destruct (m_local m)]; cbn [fst snd];
          change (tr ++ QDecoded (FCreate s dom) :: ?x) with (tr ++ ([QDecoded (FCreate s dom)] ++ x));
          rewrite app_assoc;
          (eapply (kinv_bind (kset_rbuf rest st));
            [exact Hd|repeat constructor|reflexivity|reflexivity|reflexivity|left; repeat split]).
      * destruct (nlen (k_out st) <? out_cap); apply Hpl; try reflexivity; repeat constructor.
    + destruct (N.eqb_spec s 0) as [->|Hs]; [apply Hno; reflexivity|].
      cbn [k_map kset_rbuf]. destruct (lookup N.eqb s (k_map st)) as [h|] eqn:El.
      * specialize (Hdel s (FClose s r) h El (or_intror (ex_intro _ r (conj eq_refl Hs)))).
        destruct (ktry_send h _ _) as [st' es]. exact Hdel.
      * apply Hno. cbn [kroute]. rewrite H2 in El. rewrite El. replace (s =? 0) with false by lia. reflexivity.
    + cbn [k_map kset_rbuf]. destruct (lookup N.eqb s (k_map st)) as [h|] eqn:El.
      * specialize (Hdel s (FData s d) h El (or_introl (ex_intro _ d eq_refl))).
        destruct (ktry_send h _ _) as [st' es]. exact Hdel.
      * apply Hno. cbn [kroute]. rewrite H2 in El. rewrite El. reflexivity.
    + apply Hpl; try reflexivity; repeat constructor.
    + apply Hpl; try reflexivity; repeat constructor.
Qed.

Lemma kinv_init c ms : kinv (k_init c ms) [].
Proof.
  unfold kinv, khandlers, k_init. cbn. repeat split; try constructor; intros; contradiction.
Qed.

Lemma kinv_reach c ms es st tr : krun (k_init c ms) es = (st, tr) -> kinv st tr.
Proof.
  apply (krun_reach kinv); [apply kinv_init|]. intros. apply kinv_step; assumption.
Qed.

Lemma subseq_refl {A} (l : list A) : subseq l l.
Proof. induction l; constructor; assumption. Qed.
Lemma khanded_sub tr : subseq (khanded tr) (ktried tr).
Proof.
  induction tr as [|e tr IH]; [constructor|].
  destruct e; cbn [khanded ktried flat_map app]; try exact IH.
  - apply sub_take. exact IH.
  - apply sub_skip. exact IH.
Qed.

Lemma kroute_bound b tr h f :
  In (h, f) (kroute b tr) -> b (frame_sock f) = Some h \/ In (frame_sock f, h) (kbinds tr).
Proof.
  revert b; induction tr as [|e tr IH]; intros b Hin; [destruct Hin|].
  destruct e as [g|s0 h0| | | | | | | | | | |]; cbn [kroute kbinds flat_map app] in *;
    try (apply IH; exact Hin).
  - destruct g as [s d|s r|s d|s ms|u p]; try (apply IH; exact Hin).
    + destruct (s =? 0); [apply IH; exact Hin|].
      destruct (b s) as [k|] eqn:Eb; [|apply IH; exact Hin].
      destruct Hin as [E|Hin]; [|apply IH; exact Hin]. injection E as <- <-; left; exact Eb.
    + destruct (b s) as [k|] eqn:Eb; [|apply IH; exact Hin].
      destruct Hin as [E|Hin]; [|apply IH; exact Hin]. injection E as <- <-; left; exact Eb.
  - apply IH in Hin as [Hb|Hin]; [|right; right; exact Hin].
    unfold rebind in Hb. destruct (N.eqb_spec (frame_sock f) s0) as [E|E].
    + right; left. congruence.
    + left; exact Hb.
Qed.

Lemma in_kbinds s h tr : In (s, h) (kbinds tr) <-> In (QBind s h) tr.
Proof.
  unfold kbinds. rewrite in_flat_map. split.
  - intros (e & He & Hin). destruct e; cbn in Hin; try contradiction.
    destruct Hin as [E|[]]. injection E as -> ->. exact He.
  - intros H. exists (QBind s h). split; [exact H|left; reflexivity].
Qed.

Lemma kisolation c ms es st tr s h f :
  krun (k_init c ms) es = (st, tr) -> In (QBind s h) tr -> In f (kgiven h tr) -> frame_sock f = s.
Proof.
  intros Hrun Hb Hf. pose proof (kinv_reach _ _ _ _ _ Hrun) as (H1 & _ & _ & H4 & _ & _ & H7).
  apply in_kbinds in Hb.
  assert (Hn : NoDup (map snd (kbinds tr))) by (apply NoDup_app_remove_r in H4; exact H4).
  apply in_flat_map in Hf as (e & He & Hin).
  assert (Hbind : In (frame_sock f, h) (kbinds tr)).
  { destruct e as [| | | | | |k g| |k g| | | |]; cbn in Hin; try contradiction;
      destruct (N.eqb_spec k h) as [->|]; try contradiction; destruct Hin as [->|[]].
    - assert (Hr : In (h, f) (kroute none tr)).
      { rewrite <- H1. apply in_flat_map. exists (QPut h f). split; [exact He|left; reflexivity]. }
      apply kroute_bound in Hr as [Hr|Hr]; [discriminate|exact Hr].
    - apply H7. exact He. }
  exact (NoDup_snd _ _ _ _ Hn Hbind Hb).
Qed.

(* ---- decoding ------------------------------------------------------------ *)
Definition kph (st : kst) (tr : list keff) : Prop :=
  (k_phase st = KSelect -> decode_frame (k_rbuf st) = DWait) /\
  (exists r, dsteps (kbytes_read tr) (kdecoded tr) r /\
     ((forall x, k_phase st <> KEnd x) -> r = k_rbuf st)).

Definition kinert (e : keff) : Prop := match e with QRead _ | QDecoded _ => False | _ => True end.
Lemma kinert_reads o : Forall kinert o -> kbytes_read o = [] /\ kdecoded o = [].
Proof.
  induction 1 as [|e o He _ [IH1 IH2]]; [split; reflexivity|].
  destruct e; cbn in *; try contradiction; split; assumption.
Qed.

Lemma kph_inert st tr st' o :
  kph st tr -> Forall kinert o ->
  (k_phase st' = KSelect -> decode_frame (k_rbuf st') = DWait) ->
  ((forall x, k_phase st' <> KEnd x) -> (forall x, k_phase st <> KEnd x) /\ k_rbuf st' = k_rbuf st) ->
  kph st' (tr ++ o).
Proof.
  intros (H2 & r & H3 & H4) Ho A B. destruct (kinert_reads o Ho) as [Q1 Q2].
  split; [exact A|]. exists r. rewrite kbytes_read_app, kdecoded_app, Q1, Q2, !app_nil_r.
  split; [exact H3|]. intros X. destruct (B X) as [B1 B2]. rewrite B2. apply H4. exact B1.
Qed.

Lemma ksay_bye_inert m : forall st, Forall kinert (snd (ksay_bye m st)).
Proof.
  induction m as [|[s h] m IH]; intros st; [constructor|].
  cbn [ksay_bye]. destruct (kgone h st || negb (nlen (k_box st h) <? handler_cap)); [apply IH|].
  specialize (IH (kset_box h (k_box st h ++ [FClose s []]) st)).
  destruct (ksay_bye m _) as [st' es]. cbn [fst snd] in *. constructor; [exact I|exact IH].
Qed.

Lemma ktunnel_closed_ph st tr : kph st tr ->
  kph (fst (ktunnel_closed st)) (tr ++ snd (ktunnel_closed st)).
Proof.
  intros H. unfold ktunnel_closed. pose proof (ksay_bye_inert (k_map st) st) as H1.
  destruct (ksay_bye (k_map st) st) as [st' es]. cbn [fst snd] in *.
  apply (kph_inert st tr); [exact H| | |]; cbn [k_phase kset_phase].
  - apply Forall_app. split; [exact H1|]. repeat constructor.
  - discriminate.
  - intros X. exfalso. apply (X KClosed). reflexivity.
Qed.

Lemma ktry_send_ph h f st :
  Forall kinert (snd (ktry_send h f st)) /\ k_rbuf (fst (ktry_send h f st)) = k_rbuf st /\
  k_phase (fst (ktry_send h f st)) = k_phase st.
Proof.
  unfold ktry_send. destruct (kgone h st || negb (nlen (k_box st h) <? handler_cap)); cbn [fst snd];
    (split; [repeat constructor|]); split; reflexivity.
Qed.

Lemma kph_step st tr e : kph st tr -> kph (fst (kstep st e)) (tr ++ snd (kstep st e)).
Proof.
  intros H. pose proof H as (H2 & r & H3 & H4).
  assert (Hsil : kph st (tr ++ [])) by (rewrite app_nil_r; exact H).
  assert (Hsame : forall st' o, Forall kinert o -> k_phase st' = k_phase st -> k_rbuf st' = k_rbuf st ->
            kph st' (tr ++ o)).
  { intros st' o Ho Ep Eb. apply (kph_inert st tr); [exact H|exact Ho| |]; rewrite Ep, ?Eb.
    - exact H2.
    - intros X. split; [exact X|reflexivity]. }
  assert (Hdec : forall st' o, k_phase st = KSelect -> Forall kinert o -> k_phase st' = KDecode ->
            k_rbuf st' = k_rbuf st -> kph st' (tr ++ o)).
  { intros st' o Hp Ho Ep Eb. apply (kph_inert st tr); [exact H|exact Ho| |]; rewrite Ep.
    - discriminate.
    - intros _. rewrite Hp. split; [discriminate|exact Eb]. }
  destruct e as [s|s d|s rr|h|h|h| | |b| |n| |]; cbn [kstep].
  - destruct (nlen (k_work st) <? work_cap); [|exact Hsil]. apply Hsame; try reflexivity; constructor.
  - destruct (nlen (k_out st) <? out_cap); [|exact Hsil]. apply Hsame; try reflexivity; constructor.
  - destruct (nlen (k_out st) <? out_cap); [|exact Hsil]. apply Hsame; try reflexivity; constructor.
  - destruct (k_box st h) as [|f q]; [exact Hsil|]. destruct (kgone h st); [exact Hsil|].
    apply Hsame; try reflexivity; repeat constructor.
  - apply Hsame; try reflexivity; constructor.
  - destruct (lookup N.eqb h (k_conn st)); [|exact Hsil].
    destruct (nlen (k_out st) <? out_cap); [|exact Hsil]. apply Hsame; try reflexivity; constructor.
  - destruct (k_phase st) eqn:Hp; try exact Hsil.
    destruct (k_work st) as [|[[s0 d0] h0] w]; [exact Hsil|].
    apply Hdec; try reflexivity; repeat constructor.
  - destruct (k_phase st) eqn:Hp; try exact Hsil.
    destruct (k_out st); [exact Hsil|]. apply Hdec; try reflexivity; constructor.
  - destruct (k_phase st) eqn:Hp; try exact Hsil.
    destruct b as [|x b]; [apply ktunnel_closed_ph; exact H|].
    split; [discriminate|]. exists (r ++ x :: b).
    rewrite kbytes_read_app, kdecoded_app. cbn [kbytes_read kdecoded flat_map fst snd]. rewrite !app_nil_r.
    split; [apply dsteps_app; exact H3|]. intros _. cbn [k_rbuf kset_phase kset_rbuf].
    rewrite H4; [reflexivity|discriminate].
  - destruct (k_phase st) eqn:Hp; try exact Hsil. apply ktunnel_closed_ph; exact H.
  - destruct (k_phase st) eqn:Hp; try exact Hsil.
    destruct (k_wbuf st); [exact Hsil|]. apply Hdec; try reflexivity; repeat constructor.
  - destruct (k_phase st) eqn:Hp; try exact Hsil.
    destruct (k_wbuf st); [exact Hsil|]. apply Hdec; try reflexivity; constructor.
  - destruct (k_phase st) as [| |f|x] eqn:Hp; try exact Hsil.
    2:{ destruct (nlen (k_out st) <? out_cap); [|exact Hsil].
        apply (kph_inert st tr); [exact H|repeat constructor| |]; cbn [fst k_phase kset_phase].
        - discriminate.
        - intros _. rewrite Hp. split; [discriminate|reflexivity]. }
    assert (Hr : r = k_rbuf st) by (apply H4; discriminate).
    destruct (decode_frame (k_rbuf st)) as [|f rest|e rest|] eqn:Hd.
    + apply (kph_inert st tr); [exact H|constructor| |]; cbn [fst k_phase kset_phase k_rbuf].
      * intros _. exact Hd.
      * intros _. rewrite Hp. split; [discriminate|reflexivity].
    + assert (Hds : dsteps (kbytes_read tr) (kdecoded tr ++ [f]) rest).
      { apply (dsteps_snoc _ _ r); [exact H3|rewrite Hr; exact Hd]. }
      assert (Hacc : forall st' es, Forall kinert es -> k_rbuf st' = rest ->
          k_phase st' <> KSelect -> kph st' (tr ++ QDecoded f :: es)).
      { intros st' es Hes Hb' Hp'. split; [intros E; congruence|].
        exists rest. rewrite kbytes_read_app, kdecoded_app.
        destruct (kinert_reads es Hes) as [Q1 Q2]. cbn [kbytes_read kdecoded flat_map app].
        fold (kbytes_read es). fold (kdecoded es). rewrite Q1, Q2, app_nil_r.
        split; [exact Hds|]. intros _. congruence. }
      assert (Hps : k_phase (kset_rbuf rest st) <> KSelect) by (cbn; rewrite Hp; discriminate).
      destruct f as [s dom|s rr|s d|s ms|u p]; cbn [khandle].
      * destruct (choose _ _) as [m|].
        -- destruct (is_proxy m); [|destruct (m_local m)];
             (apply Hacc; [repeat constructor|reflexivity|exact Hps]).
        -- destruct (_ <? out_cap); (apply Hacc; [repeat constructor|reflexivity|]); [exact Hps|discriminate].
      * destruct (s =? 0); [apply Hacc; [constructor|reflexivity|exact Hps]|].
        cbn [k_map kset_rbuf]. destruct (lookup N.eqb s (k_map st)) as [h|];
          [|apply Hacc; [constructor|reflexivity|exact Hps]].
        pose proof (ktry_send_ph h (FClose s rr) (kset_rbuf rest st)) as (T1 & T2 & T3).
        destruct (ktry_send h _ _) as [st' es]. cbn [fst snd] in *.
        apply Hacc; [exact T1|exact T2|rewrite T3; exact Hps].
      * cbn [k_map kset_rbuf]. destruct (lookup N.eqb s (k_map st)) as [h|];
          [|apply Hacc; [constructor|reflexivity|exact Hps]].
        pose proof (ktry_send_ph h (FData s d) (kset_rbuf rest st)) as (T1 & T2 & T3).
        destruct (ktry_send h _ _) as [st' es]. cbn [fst snd] in *.
        apply Hacc; [exact T1|exact T2|rewrite T3; exact Hps].
      * apply Hacc; [constructor|reflexivity|exact Hps].
      * apply Hacc; [repeat constructor|reflexivity|discriminate].
    + apply (kph_inert st tr); [exact H|repeat constructor| |]; cbn [fst k_phase kset_phase].
      * discriminate.
      * intros X. exfalso. apply (X (KError e)). reflexivity.
    + apply (kph_inert st tr); [exact H|repeat constructor| |]; cbn [fst k_phase kset_phase].
      * discriminate.
      * intros X. exfalso. apply (X KPanic). reflexivity.
Qed.

Lemma ksource c ms es st tr : krun (k_init c ms) es = (st, tr) ->
  (exists more, frames (kbytes_read tr) = kdecoded tr ++ more) /\
  (k_phase st = KSelect -> frames (kbytes_read tr) = kdecoded tr).
Proof.
  intros H.
  assert (G : kph st tr).
  { revert H. apply (krun_reach kph).
    - split; [intros _; reflexivity|]. exists []. split; [constructor|reflexivity].
    - intros. apply kph_step; assumption. }
  destruct G as (H2 & r & H3 & H4).
  pose proof (dsteps_frames _ _ _ H3) as E. split; [exists (frames r); exact E|].
  intros Hp. rewrite E, H4 by (rewrite Hp; discriminate).
  unfold frames. cbn [drain]. rewrite (H2 Hp). apply app_nil_r.
Qed.

(* ---- when frames are lost ------------------------------------------------ *)
Lemma lost_when st e h f :
  In (QLost h f) (snd (kstep st e)) -> kgone h st = true \/ handler_cap <= nlen (k_box st h).
Proof.
  assert (Hsend : forall k g st0, (forall x, k_box st0 x = k_box st x) -> k_gone st0 = k_gone st ->
     In (QLost h f) (snd (ktry_send k g st0)) -> kgone h st = true \/ handler_cap <= nlen (k_box st h)).
  { intros k g st0 E1 E2. unfold ktry_send.
    destruct (kgone k st0) eqn:Eg; cbn [orb].
    - intros [E|[]]. injection E as <- <-. left. unfold kgone in *. rewrite <- E2. exact Eg.
    - destruct (N.ltb_spec (nlen (k_box st0 k)) handler_cap) as [|Hge]; cbn [negb].
      + intros [E|[]]; discriminate.
      + intros [E|[]]. injection E as <- <-. right. rewrite <- E1. exact Hge. }
  assert (Hbye : forall m st0, ~ In (QLost h f) (snd (ksay_bye m st0))).
  { induction m as [|[s k] m IH]; intros st0; [intros []|]. cbn [ksay_bye].
    destruct (kgone k st0 || negb (nlen (k_box st0 k) <? handler_cap)); [apply IH|].
    specialize (IH (kset_box k (k_box st0 k ++ [FClose s []]) st0)).
    destruct (ksay_bye m _). cbn [snd] in *. intros [E|G]; [discriminate|exact (IH G)]. }
  assert (Hclosed : ~ In (QLost h f) (snd (ktunnel_closed st))).
  { unfold ktunnel_closed. specialize (Hbye (k_map st) st). destruct (ksay_bye (k_map st) st) as [st' es].
    cbn [snd] in *. intros G. apply in_app_iff in G as [G|[G|[]]]; [exact (Hbye G)|discriminate]. }
  intros Hin. destruct e as [s|s d|s rr|k|k|k| | |b| |n| |]; cbn [kstep] in Hin.
  - destruct (nlen (k_work st) <? work_cap); destruct Hin.
  - destruct (nlen (k_out st) <? out_cap); destruct Hin.
  - destruct (nlen (k_out st) <? out_cap); destruct Hin.
  - destruct (k_box st k); [destruct Hin|]. destruct (kgone k st); [destruct Hin|].
    destruct Hin as [E|[]]; discriminate.
  - destruct Hin.
  - destruct (lookup N.eqb k (k_conn st)); [|destruct Hin]. destruct (nlen (k_out st) <? out_cap); destruct Hin.
  - destruct (k_phase st), (k_work st) as [|[[? ?] ?] ?]; try (destruct Hin; fail).
    destruct Hin as [E|[]]; discriminate.
  - destruct (k_phase st), (k_out st); destruct Hin.
  - destruct (k_phase st), b; try (destruct Hin; fail).
    + exfalso. exact (Hclosed Hin).
    + destruct Hin as [E|[]]; discriminate.
  - destruct (k_phase st); try (destruct Hin; fail). exfalso. exact (Hclosed Hin).
  - destruct (k_phase st), (k_wbuf st); try (destruct Hin; fail). destruct Hin as [E|[]]; discriminate.
  - destruct (k_phase st), (k_wbuf st); destruct Hin.
  - destruct (k_phase st) as [| |fs|x]; try (destruct Hin; fail).
    2:{ destruct (nlen (k_out st) <? out_cap); [|destruct Hin]. destruct Hin as [E|[]]; discriminate. }
    destruct (decode_frame (k_rbuf st)) as [|g rest|e rest|]; try (destruct Hin; fail);
      try (destruct Hin as [E|[]]; discriminate).
    destruct g as [s dom|s rr|s d|s ms|u p]; cbn [khandle] in Hin.
    + destruct (choose _ _) as [m|].
      * destruct (is_proxy m); [|destruct (m_local m)]; cbn [snd] in Hin;
          repeat (destruct Hin as [E|Hin]; [discriminate|]); destruct Hin.
      * destruct (_ <? out_cap); cbn [snd] in Hin;
          repeat (destruct Hin as [E|Hin]; [discriminate|]); destruct Hin.
    + destruct (s =? 0); [destruct Hin as [E|[]]; discriminate|].
      destruct (lookup _ _ _) as [k|]; [|destruct Hin as [E|[]]; discriminate].
      specialize (Hsend k (FClose s rr) (kset_rbuf rest st) (fun _ => eq_refl) eq_refl).
      destruct (ktry_send k _ _) as [st' es]. cbn [snd] in *.
      destruct Hin as [E|Hin]; [discriminate|exact (Hsend Hin)].
    + destruct (lookup _ _ _) as [k|]; [|destruct Hin as [E|[]]; discriminate].
      specialize (Hsend k (FData s d) (kset_rbuf rest st) (fun _ => eq_refl) eq_refl).
      destruct (ktry_send k _ _) as [st' es]. cbn [snd] in *.
      destruct Hin as [E|Hin]; [discriminate|exact (Hsend Hin)].
    + destruct Hin as [E|[]]; discriminate.
    + cbn [snd] in Hin. repeat (destruct Hin as [E|Hin]; [discriminate|]); destruct Hin.
Qed.

(* ---- the loop can wait for itself ---------------------------------------- *)
Definition kloop_work (e : keff) : Prop := match e with QGot _ _ => False | _ => True end.
Lemma kstuck_step st e f :
  k_phase st = KStuck f -> out_cap <= nlen (k_out st) ->
  k_phase (fst (kstep st e)) = KStuck f /\ out_cap <= nlen (k_out (fst (kstep st e))) /\
  (forall o, In o (snd (kstep st e)) -> ~ kloop_work o).
Proof.
  intros Hp Ho. assert (Hf : (nlen (k_out st) <? out_cap) = false) by lia.
  destruct e as [s|s d|s rr|h|h|h| | |b| |n| |]; cbn [kstep]; rewrite ?Hp, ?Hf;
    try (repeat split; try assumption; intros o []; fail).
  - destruct (nlen (k_work st) <? work_cap); repeat split; try assumption; intros o [].
  - destruct (k_box st h); [|destruct (kgone h st)]; repeat split; try assumption; try (intros o []; fail).
    intros o [<-|[]] F; exact F.
  - destruct (lookup N.eqb h (k_conn st)); repeat split; try assumption; intros o [].
Qed.
Lemma kstuck_forever es : forall st f,
  k_phase st = KStuck f -> out_cap <= nlen (k_out st) ->
  k_phase (fst (krun st es)) = KStuck f /\ (forall o, In o (snd (krun st es)) -> ~ kloop_work o).
Proof.
  induction es as [|e es IH]; intros st f Hp Ho; [split; [exact Hp|intros o []]|].
  cbn [krun]. destruct (kstuck_step st e f Hp Ho) as (A & B & C).
  destruct (kstep st e) as [st1 o1]. cbn [fst snd] in *.
  destruct (IH st1 f A B) as [D E]. destruct (krun st1 es) as [st2 o2]. cbn [fst snd] in *.
  split; [exact D|]. intros o Hin. apply in_app_iff in Hin as [Hin|Hin]; auto.
Qed.
