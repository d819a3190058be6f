(* Handlers belong to one stream; slow handlers stall the tunnel. *)
From Coq Require Import String.
From Verif Require Import Base Text ProtModel ProtSpec ProtProofs ProtStream ProtRobust
  CsModel CsSpec CsProofs CsRoute.
Open Scope N_scope.

Definition binds (tr : list eff) : list (N * N) :=
  flat_map (fun e => match e with OBind s h => [(s, h)] | _ => [] end) tr.
Lemma binds_app a b : binds (a ++ b) = binds a ++ binds b.
Proof. apply flat_map_app. Qed.
Lemma in_binds s h tr : In (s, h) (binds tr) <-> In (OBind s h) tr.
Proof.
  unfold binds. rewrite in_flat_map. split.
  - intros (e & He & Hin). destruct e; cbn in Hin; try contradiction.
    destruct Hin as [E|[]]. injection E as -> ->. exact He.
  - intros H. exists (OBind s h). split; [exact H|left; reflexivity].
Qed.

Definition handlers (st : sst) (tr : list eff) : list N := map snd (binds tr) ++ map snd (s_work st).

Definition own_inv (st : sst) (tr : list eff) : Prop :=
  NoDup (handlers st tr) /\ Forall (fun h => h < s_next st) (handlers st tr) /\
  (forall s h, In (s, h) (s_map st) -> In (s, h) (binds tr)) /\
  (forall h f, In (OBye h f) tr -> In (frame_sock f, h) (binds tr)).

Definition plain (e : eff) : Prop := match e with OBind _ _ | OBye _ _ => False | _ => True end.
Lemma plain_ok o : Forall plain o -> binds o = [] /\ (forall h f, ~ In (OBye h f) o).
Proof.
  induction 1 as [|e o He _ [IH1 IH2]]; [split; [reflexivity|intros h f []]|].
  split.
  - destruct e; cbn in *; try contradiction; assumption.
  - intros h f [->|H]; [exact He|exact (IH2 h f H)].
Qed.

Lemma own_plain st tr st' o :
  own_inv st tr -> Forall plain o -> s_work st' = s_work st -> s_map st' = s_map st ->
  s_next st' = s_next st -> own_inv st' (tr ++ o).
Proof.
  intros (H1 & H2 & H3 & H4) Ho Hw Hm Hn. destruct (plain_ok o Ho) as [Q1 Q2].
  unfold own_inv, handlers. rewrite binds_app, Q1, app_nil_r, Hw, Hm, Hn.
  repeat split; try assumption. intros h f H. apply in_app_iff in H as [H|H]; [auto|].
  exfalso. exact (Q2 h f H).
Qed.

Lemma in_insert s h s0 h0 (m : list (N * N)) :
  In (s, h) (insert N.eqb s0 h0 m) -> (s, h) = (s0, h0) \/ In (s, h) m.
Proof.
  induction m as [|[a b] m IH]; cbn [insert].
  - intros [E|[]]. left; congruence.
  - destruct (s0 =? a).
    + intros [E|H]; [left; congruence|right; right; exact H].
    + intros [E|H]; [right; left; exact E|]. destruct (IH H) as [E|H']; [left; exact E|right; right; exact H'].
Qed.

Lemma deliver_plain h f st :
  Forall plain (snd (deliver h f st)) /\ s_work (fst (deliver h f st)) = s_work st /\
  s_map (fst (deliver h f st)) = s_map st /\ s_next (fst (deliver h f st)) = s_next st.
Proof.
  unfold deliver. destruct (gone h st); [|destruct (nlen (s_box st h) <? handler_cap)];
    cbn [fst snd]; (split; [repeat constructor|]); repeat split.
Qed.

Lemma deliver_own h f st tr : own_inv st tr ->
  own_inv (fst (deliver h f st)) (tr ++ snd (deliver h f st)).
Proof.
  intros H. destruct (deliver_plain h f st) as (A & B & C & D).
  apply (own_plain st tr); assumption.
Qed.

Lemma say_bye_own m : forall st tr, own_inv st tr -> (forall s h, In (s, h) m -> In (s, h) (binds tr)) ->
  own_inv (fst (say_bye m st)) (tr ++ snd (say_bye m st)).
Proof.
  induction m as [|[s h] m IH]; intros st tr H Hm; cbn [say_bye fst snd].
  { rewrite app_nil_r. exact H. }
  assert (Hm' : forall s h, In (s, h) m -> In (s, h) (binds tr)) by (intros; apply Hm; right; assumption).
  destruct (gone h st || negb (nlen (s_box st h) <? handler_cap)); [apply IH; assumption|].
  assert (H' : own_inv (set_box h (s_box st h ++ [FClose s []]) st) (tr ++ [OBye h (FClose s [])])).
  { destruct H as (H1 & H2 & H3 & H4). unfold own_inv, handlers. rewrite binds_app. cbn [binds flat_map].
    rewrite app_nil_r. repeat split; try assumption.
    intros k f Hin. apply in_app_iff in Hin as [Hin|[E|[]]]; [auto|].
    injection E as <- <-. cbn [frame_sock]. apply Hm. left; reflexivity. }
  assert (Hm2 : forall s0 h0, In (s0, h0) m -> In (s0, h0) (binds (tr ++ [OBye h (FClose s [])]))).
  { intros s0 h0 Hin. rewrite binds_app. apply in_app_iff. left. apply Hm'. exact Hin. }
  specialize (IH _ _ H' Hm2).
  destruct (say_bye m _) as [st' es]. cbn [fst snd] in *.
  rewrite <- app_assoc in IH. exact IH.
Qed.

Lemma tunnel_closed_own st tr : own_inv st tr ->
  own_inv (fst (tunnel_closed st)) (tr ++ snd (tunnel_closed st)).
Proof.
  intros H. unfold tunnel_closed.
  assert (Hm : forall s h, In (s, h) (s_map st) -> In (s, h) (binds tr)) by (apply H).
  pose proof (say_bye_own (s_map st) st tr H Hm) as G.
  destruct (say_bye (s_map st) st) as [st' es]. cbn [fst snd] in *.
  rewrite app_assoc. apply (own_plain st'); [exact G|repeat constructor|reflexivity|reflexivity|reflexivity].
Qed.

Lemma own_create st tr s d es : own_inv st tr -> Forall plain es ->
  own_inv (open_new s (set_map (insert N.eqb s (s_next st) (s_map st)) st))
          (tr ++ ODecoded (FCreate s d) :: OBind s (s_next st) :: es).
Proof.
  intros (H1 & H2 & H3 & H4) Hes. destruct (plain_ok es Hes) as [Q1 Q2].
  unfold own_inv, handlers. rewrite binds_app. cbn [binds flat_map app].
  fold (binds es). rewrite Q1. cbn [s_work open_new set_map s_next s_map].
  rewrite map_app. cbn [map snd].
  assert (Hfresh : ~ In (s_next st) (map snd (binds tr) ++ map snd (s_work st))).
  { intros Hin. rewrite Forall_forall in H2. specialize (H2 _ Hin). lia. }
  repeat split.
  - rewrite <- app_assoc. cbn [app].
    apply (NoDup_Add (Add_app (s_next st) _ _)). split; [exact H1|exact Hfresh].
  - apply Forall_forall. intros h Hin. rewrite <- app_assoc in Hin.
    apply in_app_iff in Hin. rewrite Forall_forall in H2. unfold handlers in H2.
    destruct Hin as [Hin|[<-|Hin]]; [|lia|].
    + specialize (H2 h (in_or_app _ _ _ (or_introl Hin))). lia.
    + specialize (H2 h (in_or_app _ _ _ (or_intror Hin))). lia.
  - intros s0 h0 Hin. apply in_insert in Hin as [E|Hin]; apply in_app_iff.
    + injection E as -> ->. right; left; reflexivity.
    + left. apply H3. exact Hin.
  - intros h f Hin. apply in_app_iff in Hin as [Hin|[E|[E|Hin]]]; try discriminate.
    + apply in_app_iff. left. apply H4. exact Hin.
    + exfalso. exact (Q2 h f Hin).
Qed.

Lemma own_step c st tr e : own_inv st tr -> own_inv (fst (step c st e)) (tr ++ snd (step c st e)).
Proof.
  intros H.
  assert (Hsil : own_inv st (tr ++ [])) by (rewrite app_nil_r; exact H).
  assert (Hpl : forall st' o, Forall plain o -> s_work st' = s_work st -> s_map st' = s_map st ->
     s_next st' = s_next st -> own_inv st' (tr ++ o)) by (intros; apply (own_plain st tr); assumption).
  destruct e as [s v|s d|s rr|h|h| | |b| |n| |]; cbn [step].
  - destruct (visit_domain _ v) as [d|]; [|exact Hsil].
    destruct (nlen (s_work st) <? work_cap); [|exact Hsil]. cbn [fst snd].
    destruct H as (H1 & H2 & H3 & H4).
    unfold own_inv, handlers. rewrite app_nil_r. cbn [s_work open_new set_work s_next s_map].
    rewrite map_app, app_assoc. cbn [map snd].
    repeat split; try assumption.
    + change (?x ++ [s_next st]) with (x ++ s_next st :: []).
      apply (NoDup_Add (Add_app (s_next st) _ [])). rewrite app_nil_r. split; [exact H1|].
      intros Hin. rewrite Forall_forall in H2. specialize (H2 _ Hin). lia.
    + apply Forall_app. split; [|constructor; [lia|constructor]].
      eapply Forall_impl; [|exact H2]. cbn. intros; lia.
  - destruct (is_open s st && _); [|exact Hsil]. apply Hpl; try reflexivity; constructor.
  - destruct (nlen (s_out st) <? out_cap); [|exact Hsil]. apply Hpl; try reflexivity; constructor.
  - destruct (s_box st h) as [|f q]; [exact Hsil|]. destruct (gone h st); [exact Hsil|].
    apply Hpl; try reflexivity; repeat constructor.
  - apply Hpl; try reflexivity; constructor.
  - destruct (s_phase st); try exact Hsil.
    destruct (s_work st) as [|[[s0 d0] h0] w] eqn:Ew; [exact Hsil|]. cbn [fst snd].
    destruct H as (H1 & H2 & H3 & H4). unfold handlers in *. rewrite Ew in H1, H2.
    unfold own_inv, handlers, after_select. rewrite binds_app.
    cbn [binds flat_map app s_work set_phase set_wbuf set_map set_work s_next s_map].
    rewrite map_app. cbn [map snd]. rewrite <- app_assoc. cbn [app].
    repeat split; try assumption.
    + intros s h Hin. apply in_app_iff. apply in_insert in Hin as [E|Hin].
      * injection E as -> ->. right; left; reflexivity.
      * left. apply H3; exact Hin.
    + intros h f Hin. apply in_app_iff in Hin as [Hin|[E|[]]]; [|discriminate].
      apply in_app_iff. left. apply H4. exact Hin.
  - destruct (s_phase st); try exact Hsil.
    destruct (s_out st) as [|f o]; [exact Hsil|]. apply Hpl; try reflexivity; constructor.
  - destruct (s_phase st); try exact Hsil.
    destruct b as [|x b]; [apply tunnel_closed_own; exact H|].
    apply Hpl; try reflexivity; repeat constructor.
  - destruct (s_phase st); try exact Hsil. apply tunnel_closed_own; exact H.
  - destruct (s_phase st); try exact Hsil.
    destruct (s_wbuf st) as [|x w]; [exact Hsil|].
    match goal with |- context [s_wbuf ?s'] => destruct (s_wbuf s'), (s_shut st) end;
      apply Hpl; try reflexivity; repeat constructor.
  - destruct (s_phase st); try exact Hsil.
    destruct (s_wbuf st); [exact Hsil|]. apply Hpl; try reflexivity; repeat constructor.
  - destruct (s_phase st) as [| |h f|x]; try exact Hsil; [|apply deliver_own; exact H].
    destruct (decode_frame (s_rbuf st)) as [|f rest|e rest|];
      try (apply Hpl; try reflexivity; repeat constructor; fail).
    assert (Hdel : forall h g, own_inv (fst (deliver h g (set_rbuf rest st)))
              (tr ++ ODecoded g :: snd (deliver h g (set_rbuf rest st)))).
    { intros h g. change (ODecoded g :: ?x) with ([ODecoded g] ++ x). rewrite app_assoc.
      apply deliver_own. apply Hpl; try reflexivity; repeat constructor. }
    unfold handle. cbn [s_verify set_rbuf s_map s_next s_wbuf].
    destruct f as [s d|s rr|s d|s ms|u p].
    + destruct (s_verify st); [|apply Hpl; try reflexivity; repeat constructor].
      cbn [negb fst snd].
      assert (H' : own_inv (set_rbuf rest st) tr).
      { rewrite <- (app_nil_r tr). apply Hpl; try reflexivity; constructor. }
      apply (own_create (set_rbuf rest st) tr s d [OServe s (s_next st)] H').
      repeat constructor.
    + destruct (s_verify st); [|apply Hpl; try reflexivity; repeat constructor]. cbn [negb].
      destruct (lookup N.eqb s (s_map st)) as [h|]; [|apply Hpl; try reflexivity; repeat constructor].
      specialize (Hdel h (FClose s rr)). destruct (deliver h _ _) as [st' es]. exact Hdel.
    + destruct (s_verify st); [|apply Hpl; try reflexivity; repeat constructor]. cbn [negb].
      destruct (lookup N.eqb s (s_map st)) as [h|]; [|apply Hpl; try reflexivity; repeat constructor].
      specialize (Hdel h (FData s d)). destruct (deliver h _ _) as [st' es]. exact Hdel.
    + destruct (s_verify st); apply Hpl; try reflexivity; repeat constructor.
    + destruct (s_verify st); cbn [negb andb]; [apply Hpl; try reflexivity; repeat constructor|].
      destruct (check_succ c u p); apply Hpl; try reflexivity; repeat constructor.
Qed.

Lemma own_reach c es st tr : run c (s_init c) es = (st, tr) -> own_inv st tr.
Proof.
  apply (run_reach c own_inv); [|intros; apply own_step; assumption].
  unfold own_inv, handlers. cbn. repeat split; try constructor; intros; contradiction.
Qed.

Lemma NoDup_app_remove_r {A} (l l' : list A) : NoDup (l ++ l') -> NoDup l.
Proof.
  induction l as [|x l IH]; intros H; [constructor|]. cbn [app] in H.
  apply NoDup_cons_iff in H as [H1 H2]. constructor; [|apply IH; exact H2].
  intros Hin. apply H1. apply in_app_iff. left; exact Hin.
Qed.

Lemma NoDup_snd (l : list (N * N)) s s' h :
  NoDup (map snd l) -> In (s, h) l -> In (s', h) l -> s = s'.
Proof.
  induction l as [|[a b] l IH]; intros Hn H1 H2; [destruct H1|].
  cbn [map snd] in Hn. apply NoDup_cons_iff in Hn as [Hb Hn].
  destruct H1 as [E1|H1], H2 as [E2|H2].
  - congruence.
  - injection E1 as -> ->. exfalso. apply Hb. apply (in_map snd) in H2. exact H2.
  - injection E2 as -> ->. exfalso. apply Hb. apply (in_map snd) in H1. exact H1.
  - apply IH; assumption.
Qed.

Lemma route_bound b tr h f :
  In (h, f) (route b tr) -> b (frame_sock f) = Some h \/ In (frame_sock f, h) (binds tr).
Proof.
  revert b; induction tr as [|e tr IH]; intros b Hin; [destruct Hin|].
  destruct e as [g| |s0 h0| | | | | | | | |]; cbn [route binds flat_map app] in *;
    try (apply IH; exact Hin).
  - destruct g as [s d|s r|s d|s ms|u p]; try (apply IH; exact Hin);
      (destruct (b s) as [k|] eqn:Eb; [|apply IH; exact Hin]);
      (destruct Hin as [E|Hin]; [|apply IH; exact Hin]);
      injection E as <- <-; left; exact Eb.
  - apply IH in Hin as [Hb|Hin]; [|right; right; exact Hin].
    unfold rebind in Hb. destruct (N.eqb_spec (frame_sock f) s0) as [E|E].
    + right; left. congruence.
    + left; exact Hb.
Qed.

Lemma handed_put h f tr : In (OPut h f) tr -> In (h, f) (handed tr).
Proof. intros H. apply in_flat_map. exists (OPut h f). split; [exact H|left; reflexivity]. Qed.

Lemma isolation c es st tr s h f :
  run c (s_init c) es = (st, tr) -> In (OBind s h) tr -> In f (given h tr) -> frame_sock f = s.
Proof.
  intros Hrun Hb Hf. pose proof (own_reach _ _ _ _ Hrun) as (H1 & _ & _ & H4).
  pose proof (dispatch _ _ _ _ Hrun) as Hd.
  apply in_binds in Hb.
  assert (Hn : NoDup (map snd (binds tr))) by (apply NoDup_app_remove_r in H1; exact H1).
  apply in_flat_map in Hf as (e & He & Hin).
  assert (Hbind : In (frame_sock f, h) (binds tr)).
  { destruct e as [| | | | |k g| |k g| | | |]; cbn in Hin; try contradiction;
      destruct (N.eqb_spec k h) as [->|]; try contradiction; destruct Hin as [->|[]].
    - assert (Hr : In (h, f) (route (fun _ => None) tr)).
      { rewrite <- Hd. apply in_app_iff. left. apply handed_put. exact He. }
      apply route_bound in Hr as [Hr|Hr]; [discriminate|exact Hr].
    - apply H4. exact He. }
  exact (NoDup_snd _ _ _ _ Hn Hbind Hb).
Qed.

Lemma handlers_unique c es st tr s s' h :
  run c (s_init c) es = (st, tr) -> In (OBind s h) tr -> In (OBind s' h) tr -> s = s'.
Proof.
  intros Hrun H1 H2. pose proof (own_reach _ _ _ _ Hrun) as (Hn & _).
  apply in_binds in H1, H2. apply NoDup_app_remove_r in Hn.
  exact (NoDup_snd _ _ _ _ Hn H1 H2).
Qed.

(* ---- drops only for handlers that left ---------------------------------- *)
Lemma deliver_gone h f st : s_gone (fst (deliver h f st)) = s_gone st.
Proof. unfold deliver. destruct (gone h st); [|destruct (nlen (s_box st h) <? handler_cap)]; reflexivity. Qed.
Lemma say_bye_gone m : forall st, s_gone (fst (say_bye m st)) = s_gone st.
Proof.
  induction m as [|[s h] m IH]; intros st; [reflexivity|]. cbn [say_bye].
  destruct (gone h st || negb (nlen (s_box st h) <? handler_cap)); [apply IH|].
  specialize (IH (set_box h (s_box st h ++ [FClose s []]) st)).
  destruct (say_bye m _). exact IH.
Qed.
Lemma handle_gone c f st : s_gone (fst (handle c f st)) = s_gone st.
Proof.
  unfold handle. destruct f as [s d|s r|s d|s ms|u p].
  - destruct (s_verify st); reflexivity.
  - destruct (s_verify st); [|reflexivity]. cbn [negb]. destruct (lookup N.eqb s (s_map st)) as [h|]; [|reflexivity].
    pose proof (deliver_gone h (FClose s r) st). destruct (deliver h _ st). assumption.
  - destruct (s_verify st); [|reflexivity]. cbn [negb]. destruct (lookup N.eqb s (s_map st)) as [h|]; [|reflexivity].
    pose proof (deliver_gone h (FData s d) st). destruct (deliver h _ st). assumption.
  - destruct (s_verify st); reflexivity.
  - destruct (s_verify st); cbn [negb andb]; [reflexivity|]. destruct (check_succ c u p); reflexivity.
Qed.

Lemma step_gone c st e :
  s_gone (fst (step c st e)) = match e with EvGone h => h :: s_gone st | _ => s_gone st end.
Proof.
  destruct e as [s v|s d|s rr|h|h| | |b| |n| |]; cbn [step]; try reflexivity.
  - destruct (visit_domain _ v); [|reflexivity]. destruct (nlen (s_work st) <? work_cap); reflexivity.
  - destruct (is_open s st && _); reflexivity.
  - destruct (nlen (s_out st) <? out_cap); reflexivity.
  - destruct (s_box st h); [reflexivity|]. destruct (gone h st); reflexivity.
  - destruct (s_phase st), (s_work st) as [|[[? ?] ?] ?]; reflexivity.
  - destruct (s_phase st), (s_out st); reflexivity.
  - destruct (s_phase st), b; try reflexivity. unfold tunnel_closed.
    pose proof (say_bye_gone (s_map st) st). destruct (say_bye (s_map st) st). assumption.
  - destruct (s_phase st); try reflexivity. unfold tunnel_closed.
    pose proof (say_bye_gone (s_map st) st). destruct (say_bye (s_map st) st). assumption.
  - destruct (s_phase st); try reflexivity. destruct (s_wbuf st); [reflexivity|].
    match goal with |- context [s_wbuf ?s'] => destruct (s_wbuf s'), (s_shut st) end; reflexivity.
  - destruct (s_phase st), (s_wbuf st); reflexivity.
  - destruct (s_phase st); try reflexivity.
    + destruct (decode_frame (s_rbuf st)); try reflexivity. rewrite handle_gone. reflexivity.
    + apply deliver_gone.
Qed.

Lemma run_gone c es : forall st h, In h (s_gone (fst (run c st es))) -> In h (s_gone st) \/ In (EvGone h) es.
Proof.
  induction es as [|e es IH]; intros st h H; [left; exact H|]. cbn [run] in H.
  pose proof (step_gone c st e) as G.
  destruct (step c st e) as [st1 o1]. cbn [fst] in G.
  specialize (IH st1 h). destruct (run c st1 es) as [st2 o2]. cbn [fst] in *.
  destruct (IH H) as [H1|H1]; [|right; right; exact H1].
  rewrite G in H1. destruct e; try (left; exact H1).
  destruct H1 as [->|H1]; [right; left; reflexivity|left; exact H1].
Qed.

Lemma gone_in h st : gone h st = true -> In h (s_gone st).
Proof. unfold gone. intros H. apply existsb_exists in H as (x & Hx & E). apply N.eqb_eq in E. congruence. Qed.

Lemma drop_inv c : forall es st tr, run c (s_init c) es = (st, tr) ->
  forall h f, In (ODrop h f) tr -> In h (s_gone st).
Proof.
  apply (run_reach c (fun st tr => forall h f, In (ODrop h f) tr -> In h (s_gone st))).
  { intros h f []. }
  intros st tr e H h f Hin.
  assert (Hkeep : In h (s_gone st) -> In h (s_gone (fst (step c st e)))).
  { rewrite step_gone. intros G. destruct e; try exact G. right; exact G. }
  apply in_app_iff in Hin as [Hin|Hin]; [apply Hkeep, (H h f Hin)|].
  apply Hkeep.
  assert (Hdel : forall k g st0, s_gone st0 = s_gone st ->
     In (ODrop h f) (snd (deliver k g st0)) -> In h (s_gone st)).
  { intros k g st0 E. unfold deliver. destruct (gone k st0) eqn:Eg.
    - intros [E1|[]]. injection E1 as <- <-. rewrite <- E. apply gone_in; exact Eg.
    - destruct (nlen (s_box st0 k) <? handler_cap); [intros [E1|[]]; discriminate|intros []]. }
  assert (Hbye : forall m st0, ~ In (ODrop h f) (snd (say_bye m st0))).
  { induction m as [|[s k] m IH]; intros st0; [intros []|]. cbn [say_bye].
    destruct (gone k st0 || negb (nlen (s_box st0 k) <? handler_cap)); [apply IH|].
    specialize (IH (set_box k (s_box st0 k ++ [FClose s []]) st0)).
    destruct (say_bye m _). cbn [snd] in *. intros [E|G]; [discriminate|exact (IH G)]. }
  assert (Hclosed : ~ In (ODrop h f) (snd (tunnel_closed st))).
  { unfold tunnel_closed. specialize (Hbye (s_map st) st). destruct (say_bye (s_map st) st) as [st' es].
    cbn [snd] in *. intros G. apply in_app_iff in G as [G|[G|[]]]; [exact (Hbye G)|discriminate]. }
  destruct e as [s v|s d|s rr|k|k| | |b| |n| |]; cbn [step] in Hin.
  - destruct (visit_domain _ v); [|destruct Hin]. destruct (nlen (s_work st) <? work_cap); destruct Hin.
  - destruct (is_open s st && _); destruct Hin.
  - destruct (nlen (s_out st) <? out_cap); destruct Hin.
  - destruct (s_box st k); [destruct Hin|]. destruct (gone k st); [destruct Hin|].
    destruct Hin as [E|[]]; discriminate.
  - destruct Hin.
  - destruct (s_phase st), (s_work st) as [|[[? ?] ?] ?]; try (destruct Hin; fail).
    destruct Hin as [E|[]]; discriminate.
  - destruct (s_phase st), (s_out st); destruct Hin.
  - destruct (s_phase st), b; try (destruct Hin; fail).
    + exfalso. exact (Hclosed Hin).
    + destruct Hin as [E|[]]; discriminate.
  - destruct (s_phase st); try (destruct Hin; fail). exfalso. exact (Hclosed Hin).
  - destruct (s_phase st); try (destruct Hin; fail). destruct (s_wbuf st); [destruct Hin|].
    match goal with H : context [s_wbuf ?s'] |- _ => destruct (s_wbuf s'), (s_shut st) end;
      cbn [snd] in Hin; repeat (destruct Hin as [E|Hin]; [discriminate|]); destruct Hin.
  - destruct (s_phase st), (s_wbuf st); try (destruct Hin; fail).
    destruct Hin as [E|[]]; discriminate.
  - destruct (s_phase st) as [| |hb fb|rb]; try (destruct Hin; fail).
    + destruct (decode_frame (s_rbuf st)) as [|g rest|e rest|]; try (destruct Hin; fail);
        try (destruct Hin as [E|[]]; discriminate).
      unfold handle in Hin. cbn [s_verify set_rbuf s_map s_next s_wbuf] in Hin.
      destruct g as [s d|s rr|s d|s ms|u p].
      * destruct (s_verify st); cbn [negb snd] in Hin;
          repeat (destruct Hin as [E|Hin]; [discriminate|]); destruct Hin.
      * destruct (s_verify st); cbn [negb] in Hin; [|destruct Hin as [E|[]]; discriminate].
        destruct (lookup N.eqb s (s_map st)) as [k|]; [|destruct Hin as [E|[]]; discriminate].
        specialize (Hdel k (FClose s rr) (set_rbuf rest st) eq_refl).
        destruct (deliver k _ _) as [st' es]. cbn [snd] in *.
        destruct Hin as [E|Hin]; [discriminate|exact (Hdel Hin)].
      * destruct (s_verify st); cbn [negb] in Hin; [|destruct Hin as [E|[]]; discriminate].
        destruct (lookup N.eqb s (s_map st)) as [k|]; [|destruct Hin as [E|[]]; discriminate].
        specialize (Hdel k (FData s d) (set_rbuf rest st) eq_refl).
        destruct (deliver k _ _) as [st' es]. cbn [snd] in *.
        destruct Hin as [E|Hin]; [discriminate|exact (Hdel Hin)].
      * destruct (s_verify st); cbn [negb snd] in Hin;
          repeat (destruct Hin as [E|Hin]; [discriminate|]); destruct Hin.
      * destruct (s_verify st); cbn [negb andb] in Hin; [destruct Hin as [E|[]]; discriminate|].
        destruct (check_succ c u p); destruct Hin as [E|[]]; discriminate.
    + exact (Hdel hb fb st eq_refl Hin).
Qed.

Lemma drop_gone c es st tr h f :
  run c (s_init c) es = (st, tr) -> In (ODrop h f) tr -> In (EvGone h) es.
Proof.
  intros Hrun Hin. pose proof (drop_inv c es st tr Hrun h f Hin) as G.
  pose proof (run_gone c es (s_init c) h) as R. rewrite Hrun in R.
  destruct (R G) as [[]|R']. exact R'.
Qed.

(* ---- a slow handler stalls the whole tunnel ----------------------------- *)
Definition tunnel_work (e : eff) : Prop :=
  match e with OGot _ _ => False | _ => True end.

Lemma stalled_step c st e h f :
  s_phase st = PBlocked h f -> gone h st = false -> handler_cap <= nlen (s_box st h) ->
  e <> EvConsume h -> e <> EvGone h ->
  s_phase (fst (step c st e)) = PBlocked h f /\ gone h (fst (step c st e)) = false /\
  handler_cap <= nlen (s_box (fst (step c st e)) h) /\
  (forall o, In o (snd (step c st e)) -> ~ tunnel_work o).
Proof.
  intros Hp Hg Hb H1 H2.
  destruct e as [s v|s d|s rr|k|k| | |b| |n| |]; cbn [step]; rewrite ?Hp;
    try (repeat split; try assumption; intros o []; fail).
  - destruct (visit_domain _ v); [destruct (nlen (s_work st) <? work_cap)|];
      repeat split; try assumption; intros o [].
  - destruct (is_open s st && _); repeat split; try assumption; intros o [].
  - destruct (nlen (s_out st) <? out_cap); repeat split; try assumption; intros o [].
  - destruct (s_box st k) as [|g q] eqn:Ek; [repeat split; try assumption; intros o []|].
    destruct (gone k st); [repeat split; try assumption; intros o []|].
    cbn [fst snd]. repeat split; try assumption.
    + cbn [s_box set_box]. destruct (N.eqb_spec h k) as [->|]; [congruence|exact Hb].
    + intros o [<-|[]] F. exact F.
  - cbn [fst snd]. repeat split; try assumption; try (intros o []).
    unfold gone in *. cbn [s_gone set_gone existsb]. rewrite Hg.
    destruct (N.eqb_spec h k) as [->|]; [congruence|reflexivity].
  - unfold deliver. rewrite Hg. replace (nlen (s_box st h) <? handler_cap) with false by lia.
    repeat split; try assumption; intros o [].
Qed.

Lemma stalled c es : forall st h f,
  s_phase st = PBlocked h f -> gone h st = false -> handler_cap <= nlen (s_box st h) ->
  ~ In (EvConsume h) es -> ~ In (EvGone h) es ->
  s_phase (fst (run c st es)) = PBlocked h f /\
  (forall o, In o (snd (run c st es)) -> ~ tunnel_work o).
Proof.
  induction es as [|e es IH]; intros st h f Hp Hg Hb H1 H2; [split; [exact Hp|intros o []]|].
  cbn [run].
  destruct (stalled_step c st e h f Hp Hg Hb) as (A & B & C & D).
  { intros ->. apply H1. left; reflexivity. }
  { intros ->. apply H2. left; reflexivity. }
  destruct (step c st e) as [st1 o1]. cbn [fst snd] in *.
  destruct (IH st1 h f A B C) as [E F].
  { intros X. apply H1. right; exact X. }
  { intros X. apply H2. right; exact X. }
  destruct (run c st1 es) as [st2 o2]. cbn [fst snd] in *.
  split; [exact E|]. intros o Ho. apply in_app_iff in Ho as [Ho|Ho]; auto.
Qed.

Lemma unstall c st h f f0 q :
  s_phase st = PBlocked h f -> gone h st = false -> s_box st h = f0 :: q -> nlen q < handler_cap ->
  snd (run c st [EvConsume h; EvDecode]) = [OGot h f0; OPut h f] /\
  s_phase (fst (run c st [EvConsume h; EvDecode])) = PDecode.
Proof.
  intros Hp Hg Hb Hl. cbn [run step]. rewrite Hb, Hg. cbn [s_phase set_box]. rewrite Hp.
  unfold deliver. change (gone h (set_box h q st)) with (gone h st). rewrite Hg.
  cbn [s_box set_box]. rewrite N.eqb_refl.
  replace (nlen q <? handler_cap) with true by lia. split; reflexivity.
Qed.
