(* Dispatch of frames to streams on the tunnel server. *)
From Coq Require Import String.
From Verif Require Import Base Text ProtModel ProtSpec ProtProofs ProtStream ProtRobust
  CsModel CsSpec CsProofs.
Open Scope N_scope.

Fixpoint bound_after (b : N -> option N) (tr : list eff) : N -> option N :=
  match tr with
  | [] => b
  | OBind s h :: tr' => bound_after (rebind b s h) tr'
  | _ :: tr' => bound_after b tr'
  end.

Lemma bound_after_app b t1 t2 : bound_after b (t1 ++ t2) = bound_after (bound_after b t1) t2.
Proof. revert b; induction t1 as [|e t1 IH]; intros b; [reflexivity|].
       destruct e; cbn [app bound_after]; apply IH. Qed.

Lemma route_app b t1 t2 : route b (t1 ++ t2) = route b t1 ++ route (bound_after b t1) t2.
Proof.
  revert b; induction t1 as [|e t1 IH]; intros b; [reflexivity|].
  destruct e as [f| | | | | | | | | | |]; cbn [app bound_after route]; try apply IH.
  destruct f as [s d|s r|s d|s ms|u p]; try apply IH;
    destruct (b s); rewrite IH; reflexivity.
Qed.

Lemma route_ext b b' tr : (forall s, b s = b' s) -> route b tr = route b' tr.
Proof.
  revert b b'; induction tr as [|e tr IH]; intros b b' H; [reflexivity|].
  destruct e as [f| |s h| | | | | | | | |]; cbn [route]; try (apply IH; exact H).
  - destruct f as [s d|s r|s d|s ms|u p]; try (apply IH; exact H);
      rewrite (H s); destruct (b' s); rewrite (IH b b' H); reflexivity.
  - apply IH. intros x. unfold rebind. destruct (x =? s); [reflexivity|apply H].
Qed.

(* Effects that have nothing to do with routing. *)
Definition quiet (e : eff) : Prop :=
  match e with
  | ODecoded (FData _ _) | ODecoded (FClose _ _) | OBind _ _ | OPut _ _ | ODrop _ _ => False
  | _ => True
  end.

Lemma quiet_routes b o : Forall quiet o ->
  handed o = [] /\ route b o = [] /\ bound_after b o = b.
Proof.
  induction 1 as [|e o He _ (IH1 & IH2 & IH3)]; [repeat split|].
  destruct e as [f| | | | | | | | | | |]; cbn [handed flat_map route bound_after app] in *;
    try contradiction; try (repeat split; assumption).
  destruct f; try contradiction; repeat split; assumption.
Qed.

Definition none : N -> option N := fun _ => None.

Definition route_inv (st : sst) (tr : list eff) : Prop :=
  handed tr ++ pending st = route none tr /\
  (forall s, lookup N.eqb s (s_map st) = bound_after none tr s) /\
  (s_shut st = true -> pending st = []).

Lemma route_quiet st tr st' o :
  route_inv st tr -> Forall quiet o -> pending st' = pending st ->
  s_map st' = s_map st -> s_shut st' = s_shut st -> route_inv st' (tr ++ o).
Proof.
  intros (H1 & H2 & H3) Ho Hp Hm Hs.
  destruct (quiet_routes (bound_after none tr) o Ho) as (Q1 & Q2 & Q3).
  unfold route_inv. rewrite handed_app, route_app, Q1, Q2, !app_nil_r, Hp, Hs, Hm.
  split; [exact H1|]. split; [|exact H3]. intros s. rewrite bound_after_app, Q3. apply H2.
Qed.

Lemma pending_after_select st : pending (after_select st) = [].
Proof. unfold pending, after_select. cbn [s_phase set_phase]. destruct (s_shut st); reflexivity. Qed.

(* In phase PSelect nothing is pending. *)
Lemma pending_select st : s_phase st = PSelect -> pending st = [].
Proof. unfold pending. intros ->. reflexivity. Qed.

Lemma route_bind st tr s h st' es :
  route_inv st tr -> pending st = [] -> pending st' = [] -> s_map st' = insert N.eqb s h (s_map st) ->
  Forall quiet es -> route_inv st' (tr ++ OBind s h :: es).
Proof.
  intros (H1 & H2 & H3) Hp Hp' Hm Hq.
  destruct (quiet_routes (rebind (bound_after none tr) s h) es Hq) as (Q1 & Q2 & Q3).
  unfold route_inv. rewrite handed_app, route_app. cbn [handed flat_map route app].
  fold (handed es). rewrite Q1, Q2, !app_nil_r, Hp', app_nil_r.
  rewrite Hp, app_nil_r in H1.
  split; [exact H1|]. split; [|reflexivity].
  intros x. rewrite bound_after_app. cbn [bound_after]. rewrite Q3, Hm. unfold rebind.
  destruct (N.eqb_spec x s) as [->|Hne].
  - apply lookup_insert_eq. exact N.eqb_eq.
  - rewrite lookup_insert_ne by (try exact N.eqb_eq; congruence). apply H2.
Qed.

Lemma say_bye_route m : forall st,
  Forall quiet (snd (say_bye m st)) /\ s_map (fst (say_bye m st)) = s_map st /\
  s_shut (fst (say_bye m st)) = s_shut st.
Proof.
  induction m as [|[s h] m IH]; intros st; [repeat split; constructor|].
  cbn [say_bye]. destruct (gone h st || negb (nlen (s_box st h) <? handler_cap)); [apply IH|].
  specialize (IH (set_box h (s_box st h ++ [FClose s []]) st)).
  destruct (say_bye m _) as [st' es]. cbn [fst snd] in *.
  destruct IH as (H1 & H2 & H3). repeat split; [constructor; [exact I|exact H1]|exact H2|exact H3].
Qed.

Lemma tunnel_closed_route st tr : route_inv st tr -> s_phase st = PSelect ->
  route_inv (fst (tunnel_closed st)) (tr ++ snd (tunnel_closed st)).
Proof.
  intros H Hp. unfold tunnel_closed.
  destruct (say_bye_route (s_map st) st) as (H1 & H2 & H3).
  destruct (say_bye (s_map st) st) as [st' es]. cbn [fst snd] in *.
  apply (route_quiet st tr); [exact H| | |exact H2|exact H3].
  - apply Forall_app. split; [exact H1|]. constructor; [exact I|constructor].
  - rewrite (pending_select st Hp). reflexivity.
Qed.

(* Handing over (now or later) a frame that was routed to h. *)
Lemma deliver_route st tr h f :
  handed tr ++ [(h, f)] = route none tr ->
  (forall s, lookup N.eqb s (s_map st) = bound_after none tr s) ->
  s_shut st = false ->
  route_inv (fst (deliver h f st)) (tr ++ snd (deliver h f st)).
Proof.
  intros H1 H2 H3. unfold deliver.
  destruct (gone h st); [|destruct (nlen (s_box st h) <? handler_cap)]; cbn [fst snd];
    unfold route_inv; rewrite handed_app, route_app; cbn [handed flat_map route app];
    rewrite ?app_nil_r; cbn [pending s_phase set_phase s_shut s_map set_box];
    (split; [rewrite ?app_nil_r; exact H1|]); (split; [|congruence]);
    intros s; rewrite ?bound_after_app; apply H2.
Qed.

Lemma route_step c st tr e :
  route_inv st tr -> (s_shut st = true -> s_phase st <> PDecode) ->
  route_inv (fst (step c st e)) (tr ++ snd (step c st e)).
Proof.
  intros H Hsd. pose proof H as (H1 & H2 & H3).
  assert (Hsil : route_inv st (tr ++ [])) by (rewrite app_nil_r; exact H).
  destruct e as [s v|s d|s rr|h|h| | |b| |n| |]; cbn [step].
  - destruct (visit_domain _ v); [|exact Hsil].
    destruct (nlen (s_work st) <? work_cap); [|exact Hsil].
    apply (route_quiet st tr); try exact H; try reflexivity; constructor.
  - destruct (is_open s st && _); [|exact Hsil].
    apply (route_quiet st tr); try exact H; try reflexivity; constructor.
  - destruct (nlen (s_out st) <? out_cap); [|exact Hsil].
    apply (route_quiet st tr); try exact H; try reflexivity; constructor.
  - destruct (s_box st h) as [|f q]; [exact Hsil|]. destruct (gone h st); [exact Hsil|].
    apply (route_quiet st tr); try exact H; try reflexivity. repeat constructor.
  - apply (route_quiet st tr); try exact H; try reflexivity; constructor.
  - destruct (s_phase st) eqn:Hp; try exact Hsil.
    destruct (s_work st) as [|[[s0 d0] h0] w]; [exact Hsil|].
    apply (route_bind st tr); try exact H; try constructor.
    + apply pending_select; exact Hp.
    + apply pending_after_select.
  - destruct (s_phase st) eqn:Hp; try exact Hsil.
    destruct (s_out st) as [|f o]; [exact Hsil|].
    apply (route_quiet st tr); try exact H; try reflexivity; try constructor.
    cbn [fst]. rewrite pending_after_select, (pending_select st Hp). reflexivity.
  - destruct (s_phase st) eqn:Hp; try exact Hsil.
    destruct b as [|x b]; [apply tunnel_closed_route; assumption|].
    apply (route_quiet st tr); try exact H; try reflexivity; [repeat constructor|].
    cbn [fst]. rewrite pending_after_select, (pending_select st Hp). reflexivity.
  - destruct (s_phase st) eqn:Hp; try exact Hsil. apply tunnel_closed_route; assumption.
  - destruct (s_phase st) eqn:Hp; try exact Hsil.
    destruct (s_wbuf st) as [|x w]; [exact Hsil|].
    match goal with |- context [s_wbuf ?s'] => destruct (s_wbuf s'), (s_shut st) eqn:Hs end;
      (apply (route_quiet st tr); [exact H|repeat constructor| |reflexivity|cbn; congruence]);
      cbn [fst]; rewrite ?pending_after_select, (pending_select st Hp); reflexivity.
  - destruct (s_phase st) eqn:Hp; try exact Hsil.
    destruct (s_wbuf st); [exact Hsil|].
    apply (route_quiet st tr); [exact H|repeat constructor| |reflexivity|reflexivity].
    rewrite (pending_select st Hp). reflexivity.
  - destruct (s_phase st) as [| |h f|r] eqn:Hp; try exact Hsil.
    + assert (Hs : s_shut st = false) by (destruct (s_shut st); [exfalso; apply Hsd; reflexivity|reflexivity]).
      assert (Hpend : pending st = []) by (unfold pending; rewrite Hp; reflexivity).
      destruct (decode_frame (s_rbuf st)) as [|f rest|e rest|].
      * apply (route_quiet st tr); [exact H|constructor| |reflexivity|reflexivity].
        rewrite Hpend. reflexivity.
      * unfold handle. cbn [s_verify set_rbuf s_map s_next s_wbuf].
        rewrite Hpend, app_nil_r in H1.
        assert (Href : route_inv
          (set_phase PSelect (set_shut true
             (set_wbuf (s_wbuf st ++ fst (encode refuse_frame)) (set_rbuf rest st)))) (tr ++ [ORefused f])).
        { unfold route_inv. rewrite handed_app, route_app.
          cbn [handed flat_map route app pending s_phase set_phase s_shut s_map set_shut set_wbuf set_rbuf].
          rewrite !app_nil_r. split; [exact H1|]. split; [|reflexivity].
          intros s. rewrite bound_after_app. apply H2. }
        assert (Hdel : forall s h g, lookup N.eqb s (s_map st) = Some h ->
            (exists d, g = FData s d) \/ (exists r, g = FClose s r) ->
            route_inv (fst (deliver h g (set_rbuf rest st)))
              (tr ++ ODecoded g :: snd (deliver h g (set_rbuf rest st)))).
        { intros s h g El Hg.
          change (ODecoded g :: ?x) with ([ODecoded g] ++ x). rewrite app_assoc.
          apply deliver_route.
          - rewrite handed_app, route_app. cbn [handed flat_map app]. rewrite app_nil_r, H1.
            f_equal. rewrite H2 in El.
            destruct Hg as [[d ->]|[r ->]]; cbn [route]; rewrite El; reflexivity.
          - intros x. rewrite bound_after_app. apply H2.
          - exact Hs. }
        assert (Hno : forall s g, lookup N.eqb s (s_map st) = None ->
            (exists d, g = FData s d) \/ (exists r, g = FClose s r) ->
            route_inv (set_rbuf rest st) (tr ++ [ODecoded g])).
        { intros s g El Hg. rewrite H2 in El.
          unfold route_inv. rewrite handed_app, route_app. cbn [handed flat_map app].
          unfold pending; cbn [s_phase set_rbuf]; rewrite Hp. rewrite !app_nil_r.
          split; [|split; [|reflexivity]].
          - rewrite H1. destruct Hg as [[d ->]|[r ->]]; cbn [route]; rewrite El, app_nil_r; reflexivity.
          - intros x. rewrite bound_after_app. apply H2. }
        destruct f as [s d|s r|s d|s ms|u p].
        -- destruct (s_verify st); [|exact Href]. cbn [negb fst snd].
           change (tr ++ [ODecoded (FCreate s d); OBind s (s_next st); OServe s (s_next st)])
             with (tr ++ [ODecoded (FCreate s d)] ++ [OBind s (s_next st); OServe s (s_next st)]).
           rewrite app_assoc.
           apply (route_bind (set_rbuf rest st)); try reflexivity.
           ++ apply (route_quiet st tr); try exact H; try reflexivity; repeat constructor.
           ++ unfold pending; cbn [s_phase set_rbuf]; rewrite Hp; reflexivity.
           ++ unfold pending; cbn [s_phase set_rbuf set_map open_new]; rewrite Hp; reflexivity.
           ++ repeat constructor.
        -- destruct (s_verify st); [|exact Href]. cbn [negb].
           destruct (lookup N.eqb s (s_map st)) as [h|] eqn:El.
           ++ specialize (Hdel s h (FClose s r) El (or_intror (ex_intro _ r eq_refl))).
              destruct (deliver h (FClose s r) (set_rbuf rest st)) as [st' es]. exact Hdel.
           ++ exact (Hno s (FClose s r) El (or_intror (ex_intro _ r eq_refl))).
        -- destruct (s_verify st); [|exact Href]. cbn [negb].
           destruct (lookup N.eqb s (s_map st)) as [h|] eqn:El.
           ++ specialize (Hdel s h (FData s d) El (or_introl (ex_intro _ d eq_refl))).
              destruct (deliver h (FData s d) (set_rbuf rest st)) as [st' es]. exact Hdel.
           ++ exact (Hno s (FData s d) El (or_introl (ex_intro _ d eq_refl))).
        -- destruct (s_verify st); [|exact Href]. cbn [negb fst snd].
           apply (route_quiet st tr); try exact H; try reflexivity; repeat constructor.
        -- destruct (s_verify st); cbn [negb andb].
           ++ apply (route_quiet st tr); try exact H; try reflexivity; repeat constructor.
           ++ destruct (check_succ c u p); [|exact Href].
              apply (route_quiet st tr); try exact H; try reflexivity; repeat constructor.
      * apply (route_quiet st tr); [exact H|repeat constructor| |reflexivity|reflexivity].
        rewrite Hpend. reflexivity.
      * apply (route_quiet st tr); [exact H|repeat constructor| |reflexivity|reflexivity].
        rewrite Hpend. reflexivity.
    + assert (Hpend : pending st = [(h, f)]) by (unfold pending; rewrite Hp; reflexivity).
      rewrite Hpend in H1, H3.
      assert (Hs : s_shut st = false) by (destruct (s_shut st); [exfalso; specialize (H3 eq_refl); discriminate|reflexivity]).
      apply deliver_route; assumption.
Qed.

(* ---- phases ------------------------------------------------------------- *)
Definition phase_inv (st : sst) (tr : list eff) : Prop :=
  (s_shut st = true -> s_phase st <> PDecode /\ forall h f, s_phase st <> PBlocked h f) /\
  (s_shut st = false -> s_phase st = PSelect -> decode_frame (s_rbuf st) = DWait) /\
  (exists r, dsteps (bytes_read tr) (decoded tr) r /\
     (s_shut st = false -> (forall x, s_phase st <> PEnd x) -> r = s_rbuf st)).

Lemma phase_same st tr st' :
  phase_inv st tr -> s_shut st' = s_shut st -> s_phase st' = s_phase st -> s_rbuf st' = s_rbuf st ->
  phase_inv st' (tr ++ []).
Proof.
  intros H Hs Hp Hb. rewrite app_nil_r. unfold phase_inv. rewrite Hs, Hp, Hb. exact H.
Qed.

(* effects that are no input *)
Definition inert (e : eff) : Prop := match e with ORead _ | ODecoded _ => False | _ => True end.
Lemma inert_reads o : Forall inert o -> bytes_read o = [] /\ decoded o = [].
Proof.
  induction 1 as [|e o He _ [IH1 IH2]]; [split; reflexivity|].
  destruct e; cbn in *; try contradiction; split; assumption.
Qed.

Lemma phase_inert st tr st' o :
  phase_inv st tr -> Forall inert o ->
  (s_shut st' = true -> s_phase st' <> PDecode /\ forall h f, s_phase st' <> PBlocked h f) ->
  (s_shut st' = false -> s_phase st' = PSelect -> decode_frame (s_rbuf st') = DWait) ->
  (s_shut st' = false -> (forall x, s_phase st' <> PEnd x) ->
     s_shut st = false /\ (forall x, s_phase st <> PEnd x) /\ s_rbuf st' = s_rbuf st) ->
  phase_inv st' (tr ++ o).
Proof.
  intros (H1 & H2 & r & H3 & H4) Ho A B C.
  destruct (inert_reads o Ho) as [Q1 Q2].
  split; [exact A|]. split; [exact B|].
  exists r. rewrite bytes_read_app, decoded_app, Q1, Q2, !app_nil_r. split; [exact H3|].
  intros X Y. destruct (C X Y) as (C1 & C2 & C3). rewrite C3. apply H4; assumption.
Qed.

Lemma say_bye_phase m : forall st,
  Forall inert (snd (say_bye m st)) /\ s_shut (fst (say_bye m st)) = s_shut st.
Proof.
  induction m as [|[s h] m IH]; intros st; [split; [constructor|reflexivity]|].
  cbn [say_bye]. destruct (gone h st || negb (nlen (s_box st h) <? handler_cap)); [apply IH|].
  specialize (IH (set_box h (s_box st h ++ [FClose s []]) st)).
  destruct (say_bye m _) as [st' es]. cbn [fst snd] in *.
  destruct IH as (H1 & H2). split; [constructor; [exact I|exact H1]|exact H2].
Qed.

Lemma tunnel_closed_phase st tr : phase_inv st tr ->
  phase_inv (fst (tunnel_closed st)) (tr ++ snd (tunnel_closed st)).
Proof.
  intros H. unfold tunnel_closed. destruct (say_bye_phase (s_map st) st) as [H1 H2].
  destruct (say_bye (s_map st) st) as [st' es]. cbn [fst snd] in *.
  apply (phase_inert st tr); [exact H| | | |]; cbn [s_phase set_phase s_shut].
  - apply Forall_app. split; [exact H1|]. repeat constructor.
  - intros _. split; discriminate.
  - discriminate.
  - intros _ X. exfalso. apply (X FinClosed). reflexivity.
Qed.

Lemma deliver_phase h f st :
  Forall inert (snd (deliver h f st)) /\ s_shut (fst (deliver h f st)) = s_shut st /\
  s_rbuf (fst (deliver h f st)) = s_rbuf st /\
  (s_phase (fst (deliver h f st)) = PDecode \/ s_phase (fst (deliver h f st)) = PBlocked h f).
Proof.
  unfold deliver. destruct (gone h st); [|destruct (nlen (s_box st h) <? handler_cap)];
    cbn [fst snd]; (split; [repeat constructor|]); (split; [reflexivity|]); (split; [reflexivity|]);
    (left; reflexivity) || (right; reflexivity).
Qed.

Lemma phase_step c st tr e : phase_inv st tr -> phase_inv (fst (step c st e)) (tr ++ snd (step c st e)).
Proof.
  intros H. pose proof H as (H1 & H2 & r & H3 & H4).
  assert (Hsil : phase_inv st (tr ++ [])) by (rewrite app_nil_r; exact H).
  assert (Hsel : forall st' o, s_phase st = PSelect -> s_shut st' = s_shut st -> s_rbuf st' = s_rbuf st ->
      Forall inert o -> phase_inv (after_select st') (tr ++ o)).
  { intros st' o Hp Hs Hb Ho. apply (phase_inert st tr); [exact H|exact Ho| | |];
      unfold after_select; cbn [s_shut s_phase set_phase s_rbuf]; rewrite ?Hs.
    - intros ->. split; discriminate.
    - intros ->. discriminate.
    - intros -> _. rewrite Hp. repeat split; [discriminate|exact Hb]. }
  destruct e as [s v|s d|s rr|h|h| | |b| |n| |]; cbn [step].
  - destruct (visit_domain _ v); [|exact Hsil].
    destruct (nlen (s_work st) <? work_cap); [|exact Hsil].
    apply (phase_same st tr); try exact H; reflexivity.
  - destruct (is_open s st && _); [|exact Hsil]. apply (phase_same st tr); try exact H; reflexivity.
  - destruct (nlen (s_out st) <? out_cap); [|exact Hsil].
    apply (phase_same st tr); try exact H; reflexivity.
  - destruct (s_box st h) as [|f q]; [exact Hsil|]. destruct (gone h st); [exact Hsil|].
    apply (phase_inert st tr); [exact H|repeat constructor| | |]; cbn [fst s_shut s_phase s_rbuf set_box].
    + exact H1.
    + exact H2.
    + intros A B. repeat split; assumption.
  - apply (phase_same st tr); try exact H; reflexivity.
  - destruct (s_phase st) eqn:Hp; try exact Hsil.
    destruct (s_work st) as [|[[s0 d0] h0] w]; [exact Hsil|].
    apply Hsel; try reflexivity; repeat constructor.
  - destruct (s_phase st) eqn:Hp; try exact Hsil.
    destruct (s_out st) as [|f o]; [exact Hsil|].
    apply Hsel; try reflexivity; constructor.
  - destruct (s_phase st) eqn:Hp; try exact Hsil.
    destruct b as [|x b]; [apply tunnel_closed_phase; exact H|].
    cbn [fst snd]. unfold phase_inv, after_select. cbn [s_shut s_phase set_phase s_rbuf set_rbuf].
    split; [intros ->; split; discriminate|]. split; [intros ->; discriminate|].
    exists (r ++ x :: b). rewrite bytes_read_app, decoded_app. cbn [bytes_read decoded flat_map].
    rewrite !app_nil_r. split; [apply dsteps_app; exact H3|].
    intros Hs _. rewrite (H4 Hs); [reflexivity|]. discriminate.
  - destruct (s_phase st) eqn:Hp; try exact Hsil. apply tunnel_closed_phase; exact H.
  - destruct (s_phase st) eqn:Hp; try exact Hsil.
    destruct (s_wbuf st) as [|x w]; [exact Hsil|].
    match goal with |- context [s_wbuf ?s'] => destruct (s_wbuf s'), (s_shut st) eqn:Hs end;
      try (apply Hsel; cbn; try congruence; repeat constructor; fail).
    apply (phase_inert st tr); [exact H|repeat constructor| | |];
      cbn [fst s_shut s_phase set_phase set_wbuf].
    + intros _; split; discriminate.
    + congruence.
    + congruence.
  - destruct (s_phase st) eqn:Hp; try exact Hsil.
    destruct (s_wbuf st); [exact Hsil|].
    apply (phase_inert st tr); [exact H|repeat constructor| | |]; cbn [fst s_shut s_phase set_phase].
    + intros _; split; discriminate.
    + discriminate.
    + intros _ X. exfalso. apply (X FinPanic). reflexivity.
  - destruct (s_phase st) as [| |h f|x] eqn:Hp; try exact Hsil.
    + assert (Hs : s_shut st = false)
        by (destruct (s_shut st); [exfalso; apply (proj1 (H1 eq_refl)); reflexivity|reflexivity]).
      assert (Hr : r = s_rbuf st) by (apply H4; [exact Hs|discriminate]).
      destruct (decode_frame (s_rbuf st)) as [|f rest|e rest|] eqn:Hd.
      * apply (phase_inert st tr); [exact H|constructor| | |]; cbn [fst s_shut s_phase set_phase s_rbuf].
        -- congruence.
        -- intros _ _. exact Hd.
        -- intros _ _. rewrite Hp. repeat split; [exact Hs|discriminate].
      * (* one frame *)
        assert (Hds : dsteps (bytes_read tr) (decoded tr ++ [f]) rest).
        { apply (dsteps_snoc _ _ r); [exact H3|rewrite Hr; exact Hd]. }
        assert (Hacc : forall st' es, Forall inert es -> s_shut st' = false -> s_rbuf st' = rest ->
            (s_phase st' = PDecode \/ exists h, s_phase st' = PBlocked h f) ->
            phase_inv st' (tr ++ ODecoded f :: es)).
        { intros st' es Hes Hs' Hb' Hp'. split; [congruence|]. split.
          { intros _ E. destruct Hp' as [E'|[h E']]; congruence. }
          exists rest. rewrite bytes_read_app, decoded_app.
          destruct (inert_reads es Hes) as [Q1 Q2].
          cbn [bytes_read decoded flat_map app].
          fold (bytes_read es). fold (decoded es). rewrite Q1, Q2, app_nil_r.
          split; [exact Hds|]. intros _ _. congruence. }
        assert (Href : phase_inv
          (set_phase PSelect (set_shut true
             (set_wbuf (s_wbuf st ++ fst (encode refuse_frame)) (set_rbuf rest st)))) (tr ++ [ORefused f])).
        { split; [intros _; split; discriminate|]. split; [discriminate|].
          exists r. rewrite bytes_read_app, decoded_app. cbn [bytes_read decoded flat_map].
          rewrite !app_nil_r. split; [exact H3|discriminate]. }
        unfold handle. cbn [s_verify set_rbuf s_map s_next s_wbuf].
        destruct f as [s d|s rr|s d|s ms|u p].
        -- destruct (s_verify st); [|exact Href]. apply Hacc; [repeat constructor|exact Hs|reflexivity|left; exact Hp].
        -- destruct (s_verify st); [|exact Href]. cbn [negb].
           destruct (lookup N.eqb s (s_map st)) as [h|].
           ++ pose proof (deliver_phase h (FClose s rr) (set_rbuf rest st)) as (D1 & D2 & D3 & D4).
              destruct (deliver h (FClose s rr) (set_rbuf rest st)) as [st' es]. cbn [fst snd] in *.
              apply Hacc; [exact D1|rewrite D2; exact Hs|exact D3|].
              destruct D4 as [D4|D4]; [left; exact D4|right; exists h; exact D4].
           ++ apply Hacc; [constructor|exact Hs|reflexivity|left; exact Hp].
        -- destruct (s_verify st); [|exact Href]. cbn [negb].
           destruct (lookup N.eqb s (s_map st)) as [h|].
           ++ pose proof (deliver_phase h (FData s d) (set_rbuf rest st)) as (D1 & D2 & D3 & D4).
              destruct (deliver h (FData s d) (set_rbuf rest st)) as [st' es]. cbn [fst snd] in *.
              apply Hacc; [exact D1|rewrite D2; exact Hs|exact D3|].
              destruct D4 as [D4|D4]; [left; exact D4|right; exists h; exact D4].
           ++ apply Hacc; [constructor|exact Hs|reflexivity|left; exact Hp].
        -- destruct (s_verify st); [|exact Href]. apply Hacc; [repeat constructor|exact Hs|reflexivity|left; exact Hp].
        -- destruct (s_verify st); cbn [negb andb].
           ++ apply Hacc; [constructor|exact Hs|reflexivity|left; exact Hp].
           ++ destruct (check_succ c u p); [|exact Href].
              apply Hacc; [constructor|exact Hs|reflexivity|left; exact Hp].
      * apply (phase_inert st tr); [exact H|repeat constructor| | |]; cbn [fst s_shut s_phase set_phase].
        -- intros _; split; discriminate.
        -- discriminate.
        -- intros _ X. exfalso. apply (X (FinError e)). reflexivity.
      * apply (phase_inert st tr); [exact H|repeat constructor| | |]; cbn [fst s_shut s_phase set_phase].
        -- intros _; split; discriminate.
        -- discriminate.
        -- intros _ X. exfalso. apply (X FinPanic). reflexivity.
    + assert (Hs : s_shut st = false)
        by (destruct (s_shut st); [exfalso; apply (proj2 (H1 eq_refl) h f); reflexivity|reflexivity]).
      pose proof (deliver_phase h f st) as (D1 & D2 & D3 & D4).
      apply (phase_inert st tr); [exact H|exact D1| | |].
      * rewrite D2. congruence.
      * intros _ E. destruct D4 as [D4|D4]; congruence.
      * intros _ _. rewrite Hp. repeat split; [exact Hs|discriminate|exact D3].
Qed.

Lemma init_phase c : phase_inv (s_init c) [].
Proof.
  split; [discriminate|]. split; [reflexivity|]. exists []. split; [constructor|reflexivity].
Qed.

Lemma route_phase_reach c es st tr : run c (s_init c) es = (st, tr) ->
  route_inv st tr /\ phase_inv st tr.
Proof.
  apply (run_reach c (fun st tr => route_inv st tr /\ phase_inv st tr)).
  - split; [|apply init_phase]. repeat split.
  - intros st0 tr0 e [H1 H2]. split; [|apply phase_step; exact H2].
    apply route_step; [exact H1|]. intros Hs. apply (proj1 (proj1 H2 Hs)).
Qed.

Lemma dispatch c es st tr : run c (s_init c) es = (st, tr) ->
  handed tr ++ pending st = route (fun _ => None) tr.
Proof. intros H. apply route_phase_reach in H as [[H _] _]. exact H. Qed.

Lemma source c es st tr : run c (s_init c) es = (st, tr) ->
  (exists more, frames (bytes_read tr) = decoded tr ++ more) /\
  (s_phase st = PSelect -> s_shut st = false -> frames (bytes_read tr) = decoded tr).
Proof.
  intros H. apply route_phase_reach in H as [_ (_ & H2 & r & H3 & H4)].
  pose proof (dsteps_frames _ _ _ H3) as E. split; [exists (frames r); exact E|].
  intros Hp Hs. rewrite E, (H4 Hs) by (rewrite Hp; discriminate).
  unfold frames. cbn [drain]. rewrite (H2 Hs Hp). apply app_nil_r.
Qed.

(* ---- mailboxes are fifo ------------------------------------------------- *)
Definition box_inv (st : sst) (tr : list eff) : Prop :=
  forall h, got h tr ++ s_box st h = given h tr.

Lemma box_same st tr st' o :
  box_inv st tr -> s_box st' = s_box st ->
  (forall h, got h o = []) -> (forall h, given h o = []) -> box_inv st' (tr ++ o).
Proof.
  intros H Hb Hg Hv h. rewrite got_app, given_app, Hg, Hv, !app_nil_r, Hb. apply H.
Qed.

Lemma box_push st tr h f e :
  box_inv st tr -> (e = OPut h f \/ e = OBye h f) ->
  box_inv (set_box h (s_box st h ++ [f]) st) (tr ++ [e]).
Proof.
  intros H He k. rewrite got_app, given_app.
  assert (E1 : got k [e] = []) by (destruct He as [-> | ->]; reflexivity).
  assert (E2 : given k [e] = if h =? k then [f] else [])
    by (destruct He as [-> | ->]; cbn [given flat_map]; apply app_nil_r).
  rewrite E1, E2, app_nil_r. cbn [s_box set_box]. rewrite <- (H k).
  destruct (N.eqb_spec k h) as [->|Hne].
  - rewrite N.eqb_refl, app_assoc. reflexivity.
  - replace (h =? k) with false by lia. rewrite app_nil_r. reflexivity.
Qed.

Lemma say_bye_box m : forall st tr, box_inv st tr ->
  box_inv (fst (say_bye m st)) (tr ++ snd (say_bye m st)).
Proof.
  induction m as [|[s h] m IH]; intros st tr H; cbn [say_bye fst snd].
  { rewrite app_nil_r. exact H. }
  destruct (gone h st || negb (nlen (s_box st h) <? handler_cap)); [apply IH; exact H|].
  pose proof (box_push st tr h (FClose s []) _ H (or_intror eq_refl)) as H'.
  specialize (IH _ _ H').
  destruct (say_bye m _) as [st' es]. cbn [fst snd] in *.
  rewrite <- app_assoc in IH. exact IH.
Qed.

Lemma tunnel_closed_box st tr : box_inv st tr ->
  box_inv (fst (tunnel_closed st)) (tr ++ snd (tunnel_closed st)).
Proof.
  intros H. unfold tunnel_closed. pose proof (say_bye_box (s_map st) st tr H) as G.
  destruct (say_bye (s_map st) st) as [st' es]. cbn [fst snd] in *.
  rewrite app_assoc. apply (box_same st'); [exact G|reflexivity|reflexivity|reflexivity].
Qed.

Lemma deliver_box h f st tr : box_inv st tr ->
  box_inv (fst (deliver h f st)) (tr ++ snd (deliver h f st)).
Proof.
  intros H. unfold deliver. destruct (gone h st); [|destruct (nlen (s_box st h) <? handler_cap)];
    cbn [fst snd].
  - apply (box_same st); [exact H|reflexivity|reflexivity|reflexivity].
  - apply (box_push st tr h f (OPut h f) H). left; reflexivity.
  - apply (box_same st); [exact H|reflexivity|reflexivity|reflexivity].
Qed.

Lemma box_step c st tr e : box_inv st tr -> box_inv (fst (step c st e)) (tr ++ snd (step c st e)).
Proof.
  intros H.
  assert (Hsil : box_inv st (tr ++ [])) by (rewrite app_nil_r; exact H).
  destruct e as [s v|s d|s rr|h|h| | |b| |n| |]; cbn [step].
  - destruct (visit_domain _ v); [|exact Hsil].
    destruct (nlen (s_work st) <? work_cap); [|exact Hsil].
    apply (box_same st tr); try exact H; reflexivity.
  - destruct (is_open s st && _); [|exact Hsil]. apply (box_same st tr); try exact H; reflexivity.
  - destruct (nlen (s_out st) <? out_cap); [|exact Hsil].
    apply (box_same st tr); try exact H; reflexivity.
  - destruct (s_box st h) as [|f q] eqn:Eb; [exact Hsil|]. destruct (gone h st); [exact Hsil|].
    cbn [fst snd]. intros k. rewrite got_app, given_app. cbn [got given flat_map s_box set_box].
    rewrite !app_nil_r. rewrite <- (H k).
    destruct (N.eqb_spec k h) as [->|Hne].
    + rewrite N.eqb_refl, Eb, <- app_assoc. reflexivity.
    + replace (h =? k) with false by lia. rewrite app_nil_r. reflexivity.
  - apply (box_same st tr); try exact H; reflexivity.
  - destruct (s_phase st); try exact Hsil.
    destruct (s_work st) as [|[[s0 d0] h0] w]; [exact Hsil|].
    apply (box_same st tr); try exact H; reflexivity.
  - destruct (s_phase st); try exact Hsil.
    destruct (s_out st) as [|f o]; [exact Hsil|]. apply (box_same st tr); try exact H; reflexivity.
  - destruct (s_phase st); try exact Hsil.
    destruct b as [|x b]; [apply tunnel_closed_box; exact H|].
    apply (box_same st tr); try exact H; reflexivity.
  - destruct (s_phase st); try exact Hsil. apply tunnel_closed_box; exact H.
  - destruct (s_phase st); try exact Hsil.
    destruct (s_wbuf st) as [|x w]; [exact Hsil|].
    match goal with |- context [s_wbuf ?s'] => destruct (s_wbuf s'), (s_shut st) end;
      apply (box_same st tr); try exact H; reflexivity.
  - destruct (s_phase st); try exact Hsil.
    destruct (s_wbuf st); [exact Hsil|]. apply (box_same st tr); try exact H; reflexivity.
  - destruct (s_phase st) as [| |h f|x]; try exact Hsil; [|apply deliver_box; exact H].
    destruct (decode_frame (s_rbuf st)) as [|f rest|e rest|];
      try (apply (box_same st tr); try exact H; reflexivity).
    assert (Hdel : forall h g, box_inv (fst (deliver h g (set_rbuf rest st)))
              (tr ++ ODecoded g :: snd (deliver h g (set_rbuf rest st)))).
    { intros h g. change (ODecoded g :: ?x) with ([ODecoded g] ++ x). rewrite app_assoc.
      apply deliver_box. apply (box_same st tr); try exact H; reflexivity. }
    unfold handle. cbn [s_verify set_rbuf s_map s_next s_wbuf].
    destruct f as [s d|s rr|s d|s ms|u p].
    + destruct (s_verify st); apply (box_same st tr); try exact H; reflexivity.
    + destruct (s_verify st); [|apply (box_same st tr); try exact H; reflexivity]. cbn [negb].
      destruct (lookup N.eqb s (s_map st)) as [h|]; [|apply (box_same st tr); try exact H; reflexivity].
      specialize (Hdel h (FClose s rr)). destruct (deliver h _ _) as [st' es]. exact Hdel.
    + destruct (s_verify st); [|apply (box_same st tr); try exact H; reflexivity]. cbn [negb].
      destruct (lookup N.eqb s (s_map st)) as [h|]; [|apply (box_same st tr); try exact H; reflexivity].
      specialize (Hdel h (FData s d)). destruct (deliver h _ _) as [st' es]. exact Hdel.
    + destruct (s_verify st); apply (box_same st tr); try exact H; reflexivity.
    + destruct (s_verify st); cbn [negb andb]; [apply (box_same st tr); try exact H; reflexivity|].
      destruct (check_succ c u p); apply (box_same st tr); try exact H; reflexivity.
Qed.

Lemma fifo c es st tr : run c (s_init c) es = (st, tr) ->
  forall h, got h tr ++ s_box st h = given h tr.
Proof.
  apply (run_reach c box_inv); [intros h; reflexivity|]. intros. apply box_step; assumption.
Qed.
