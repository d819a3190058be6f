From Coq Require Import String.
From Verif Require Import Base Text ProtModel ProtSpec ProtProofs ProtStream ProtRobust
  CsModel CsSpec.
Open Scope N_scope.

(* ---- generic ------------------------------------------------------------ *)
Lemma run_inv c (I : sst -> list eff -> Prop) :
  (forall st tr e, I st tr -> I (fst (step c st e)) (tr ++ snd (step c st e))) ->
  forall es st tr, I st tr -> I (fst (run c st es)) (tr ++ snd (run c st es)).
Proof.
  intros Hs es. induction es as [|e es IH]; intros st tr H; cbn [run].
  - cbn [fst snd]. rewrite app_nil_r. exact H.
  - specialize (Hs st tr e H). destruct (step c st e) as [st1 o1]. cbn [fst snd] in Hs.
    specialize (IH st1 (tr ++ o1) Hs). destruct (run c st1 es) as [st2 o2]. cbn [fst snd] in *.
    rewrite app_assoc. exact IH.
Qed.

Lemma run_reach c (I : sst -> list eff -> Prop) :
  I (s_init c) [] ->
  (forall st tr e, I st tr -> I (fst (step c st e)) (tr ++ snd (step c st e))) ->
  forall es st tr, run c (s_init c) es = (st, tr) -> I st tr.
Proof.
  intros H0 Hs es st tr H. pose proof (run_inv c I Hs es (s_init c) [] H0) as G.
  rewrite H in G. exact G.
Qed.

Lemma bytes_read_app a b : bytes_read (a ++ b) = bytes_read a ++ bytes_read b.
Proof. apply flat_map_app. Qed.
Lemma written_app a b : written (a ++ b) = written a ++ written b.
Proof. apply flat_map_app. Qed.

Definition refused (tr : list eff) : list frame :=
  flat_map (fun e => match e with ORefused f => [f] | _ => [] end) tr.
Lemma refused_app a b : refused (a ++ b) = refused a ++ refused b.
Proof. apply flat_map_app. Qed.
Lemma decoded_app a b : decoded (a ++ b) = decoded a ++ decoded b.
Proof. apply flat_map_app. Qed.
Lemma handed_app a b : handed (a ++ b) = handed a ++ handed b.
Proof. apply flat_map_app. Qed.
Lemma given_app h a b : given h (a ++ b) = given h a ++ given h b.
Proof. apply flat_map_app. Qed.
Lemma got_app h a b : got h (a ++ b) = got h a ++ got h b.
Proof. apply flat_map_app. Qed.

Lemma check_matches c u p : check_succ c u p = true <-> matches c u p.
Proof.
  unfold check_succ, matches. destruct (c_user c) as [u'|], (c_pass c) as [p'|];
    rewrite ?andb_true_iff, ?andb_true_r, ?leqb_ok; split; intros H;
    repeat match goal with H : _ /\ _ |- _ => destruct H end;
    repeat split; intros; try congruence; try discriminate;
    try (symmetry; auto; fail); auto.
Qed.

(* ---- frames of a byte string -------------------------------------------- *)
Lemma decode_shorter b f r : decode_frame b = DFrame f r -> (length r < length b)%nat.
Proof.
  intros H. destruct (announced b) as [n|] eqn:Ha.
  2:{ assert (decode_frame b = DWait) as Hw by (apply decode_frame_wait; rewrite Ha; exact I).
      congruence. }
  destruct (N.ltb_spec (nlen b) n) as [Hlt|Hge].
  { assert (decode_frame b = DWait) as Hw by (apply decode_frame_wait; rewrite Ha; exact Hlt).
    congruence. }
  assert (12 <= n).
  { destruct b as [|x [|y [|z b]]]; try discriminate. cbn [announced] in Ha. injection Ha as <-. lia. }
  assert (r = skipn (N.to_nat n) b) as ->.
  { destruct (decode_frame_rest b n Ha Hge) as [E|[[f' E]|[e E]]]; congruence. }
  rewrite skipn_length. unfold nlen in Hge. lia.
Qed.

Lemma drain_fuel b : forall n m, (length b < n)%nat -> (length b < m)%nat -> drain n b = drain m b.
Proof.
  remember (length b) as k eqn:Hk. revert b Hk.
  induction k as [k IH] using lt_wf_ind. intros b -> n m Hn Hm.
  destruct n as [|n]; [lia|]. destruct m as [|m]; [lia|]. cbn [drain].
  destruct (decode_frame b) as [|f r|e r|] eqn:E; try reflexivity.
  pose proof (decode_shorter b f r E) as Hs.
  rewrite (IH (length r) Hs r eq_refl n m) by lia. reflexivity.
Qed.

Lemma frames_step b f r : decode_frame b = DFrame f r -> frames b = f :: frames r.
Proof.
  intros H. unfold frames at 1. cbn [drain]. rewrite H.
  pose proof (decode_shorter b f r H) as Hs.
  rewrite (drain_fuel r (length b) (S (length r))) by lia. unfold frames.
  destruct (drain (S (length r)) r) as [[fs r'] st']. reflexivity.
Qed.

(* b splits into frames fs followed by the undecoded bytes r *)
Inductive dsteps : bytes -> list frame -> bytes -> Prop :=
| ds_nil b : dsteps b [] b
| ds_cons b f b1 fs r : decode_frame b = DFrame f b1 -> dsteps b1 fs r -> dsteps b (f :: fs) r.

Lemma dsteps_app b fs r c : dsteps b fs r -> dsteps (b ++ c) fs (r ++ c).
Proof.
  induction 1 as [b|b f b1 fs r H _ IH]; [constructor|].
  econstructor; [apply decode_frame_app; exact H|exact IH].
Qed.
Lemma dsteps_snoc b fs r f r' :
  dsteps b fs r -> decode_frame r = DFrame f r' -> dsteps b (fs ++ [f]) r'.
Proof.
  induction 1 as [b|b g b1 fs r H _ IH]; intros Hf; cbn [app].
  - econstructor; [exact Hf|constructor].
  - econstructor; [exact H|apply IH; exact Hf].
Qed.
Lemma dsteps_frames b fs r : dsteps b fs r -> frames b = fs ++ frames r.
Proof.
  induction 1 as [b|b f b1 fs r H _ IH]; [reflexivity|].
  rewrite (frames_step b f b1 H), IH. reflexivity.
Qed.

(* ---- C07 ---------------------------------------------------------------- *)
Definition unauth (st : sst) (tr : list eff) : Prop :=
  s_maps st = [] /\ s_work st = [] /\ s_open st = [] /\ s_map st = [] /\
  Forall is_close (s_out st) /\ (forall e, In e tr -> ~ service e) /\
  (forall h f, s_phase st <> PBlocked h f) /\
  (s_shut st = true -> s_phase st <> PDecode) /\
  exists l, Forall is_close l /\ written tr ++ s_wbuf st = wire l /\
    if s_shut st
    then In refuse_frame l /\ exists f r, refused tr = [f] /\ decode_frame (bytes_read tr) = DFrame f r
    else refused tr = [] /\
         (s_phase st = PSelect \/ s_phase st = PDecode -> bytes_read tr = s_rbuf st).

Definition auth_inv (c : creds) (st : sst) (tr : list eff) : Prop :=
  (s_verify st = true /\ refused tr = [] /\
     exists u p r, decode_frame (bytes_read tr) = DFrame (FToken u p) r /\ matches c u p) \/
  (s_verify st = false /\
    (forall u p, In (FToken u p) (refused tr) -> ~ matches c u p) /\ unauth st tr).

Lemma deliver_verify h f st : s_verify (fst (deliver h f st)) = s_verify st.
Proof. unfold deliver. destruct (gone h st); [reflexivity|].
       destruct (nlen (s_box st h) <? handler_cap); reflexivity. Qed.
Lemma deliver_refused h f st : refused (snd (deliver h f st)) = [].
Proof. unfold deliver. destruct (gone h st); [reflexivity|].
       destruct (nlen (s_box st h) <? handler_cap); reflexivity. Qed.

Lemma say_bye_keeps m : forall st,
  s_verify (fst (say_bye m st)) = s_verify st /\ refused (snd (say_bye m st)) = [] /\
  bytes_read (snd (say_bye m st)) = [] /\ written (snd (say_bye m st)) = [].
Proof.
  induction m as [|[s h] m IH]; intros st; [repeat split|].
  cbn [say_bye]. destruct (gone h st || negb (nlen (s_box st h) <? handler_cap)); [apply IH|].
  specialize (IH (set_box h (s_box st h ++ [FClose s []]) st)).
  destruct (say_bye m _) as [st' es]. cbn [fst snd] in *.
  destruct IH as (H1 & H2 & H3 & H4). repeat split; assumption.
Qed.

Lemma handle_verified c f st : s_verify st = true ->
  s_verify (fst (handle c f st)) = true /\ refused (snd (handle c f st)) = [].
Proof.
  intros Hv. unfold handle. rewrite Hv. cbn [negb andb].
  destruct f as [s d|s r|s d|s ms|u p]; cbn [fst snd]; try (split; [exact Hv|reflexivity]).
  - destruct (lookup N.eqb s (s_map st)) as [h|]; [|split; [exact Hv|reflexivity]].
    pose proof (deliver_verify h (FClose s r) st) as H1.
    pose proof (deliver_refused h (FClose s r) st) as H2.
    destruct (deliver h (FClose s r) st) as [st' es]. cbn [fst snd] in *.
    split; [congruence|exact H2].
  - destruct (lookup N.eqb s (s_map st)) as [h|]; [|split; [exact Hv|reflexivity]].
    pose proof (deliver_verify h (FData s d) st) as H1.
    pose proof (deliver_refused h (FData s d) st) as H2.
    destruct (deliver h (FData s d) st) as [st' es]. cbn [fst snd] in *.
    split; [congruence|exact H2].
Qed.

Lemma tunnel_closed_keeps st :
  s_verify (fst (tunnel_closed st)) = s_verify st /\ refused (snd (tunnel_closed st)) = [] /\
  bytes_read (snd (tunnel_closed st)) = [] /\ written (snd (tunnel_closed st)) = [].
Proof.
  unfold tunnel_closed. pose proof (say_bye_keeps (s_map st) st) as H.
  destruct (say_bye (s_map st) st) as [st' es]. cbn [fst snd] in *.
  destruct H as (H1 & H2 & H3 & H4).
  rewrite refused_app, bytes_read_app, written_app, H2, H3, H4. repeat split. exact H1.
Qed.

Lemma step_verified c st e : s_verify st = true ->
  s_verify (fst (step c st e)) = true /\ refused (snd (step c st e)) = [].
Proof.
  intros Hv. destruct e as [s v|s d|s r|h|h| | |b| |n| |]; cbn [step].
  - destruct (visit_domain _ v); [|split; [exact Hv|reflexivity]].
    destruct (nlen (s_work st) <? work_cap); split; try exact Hv; reflexivity.
  - destruct (is_open s st && _); split; try exact Hv; reflexivity.
  - destruct (nlen (s_out st) <? out_cap); split; try exact Hv; reflexivity.
  - destruct (s_box st h); [split; [exact Hv|reflexivity]|].
    destruct (gone h st); split; try exact Hv; reflexivity.
  - split; [exact Hv|reflexivity].
  - destruct (s_phase st), (s_work st) as [|[[s0 d0] h0] w0]; split; try exact Hv; reflexivity.
  - destruct (s_phase st), (s_out st); split; try exact Hv; reflexivity.
  - destruct (s_phase st), b; try (split; [exact Hv|reflexivity]).
    destruct (tunnel_closed_keeps st) as (H1 & H2 & _). split; congruence.
  - destruct (s_phase st); try (split; [exact Hv|reflexivity]).
    destruct (tunnel_closed_keeps st) as (H1 & H2 & _). split; congruence.
  - destruct (s_phase st); try (split; [exact Hv|reflexivity]).
    destruct (s_wbuf st) as [|x w]; [split; [exact Hv|reflexivity]|].
    match goal with |- context [s_wbuf ?s'] => destruct (s_wbuf s'), (s_shut st) end;
      split; try exact Hv; reflexivity.
  - destruct (s_phase st), (s_wbuf st); split; try exact Hv; reflexivity.
  - destruct (s_phase st); try (split; [exact Hv|reflexivity]).
    + destruct (decode_frame (s_rbuf st)) as [|f rest|e rest|]; try (split; [exact Hv|reflexivity]).
      apply handle_verified. exact Hv.
    + split; [rewrite deliver_verify; exact Hv|apply deliver_refused].
Qed.

Lemma wire_snoc l f : wire (l ++ [f]) = wire l ++ fst (encode f).
Proof. rewrite wire_app. cbn [wire flat_map]. rewrite app_nil_r. reflexivity. Qed.

Lemma not_service_app tr o :
  (forall e, In e tr -> ~ service e) -> (forall e, In e o -> ~ service e) ->
  forall e, In e (tr ++ o) -> ~ service e.
Proof. intros H1 H2 e H. apply in_app_iff in H as [H|H]; auto. Qed.

Lemma matches_dec c u p : check_succ c u p = false -> ~ matches c u p.
Proof. intros H M. apply check_matches in M. congruence. Qed.

(* a refused frame *)
Lemma refuse_ok c st tr f rest :
  s_verify st = false -> unauth st tr -> s_phase st = PDecode -> s_shut st = false ->
  (forall u p, In (FToken u p) (refused tr) -> ~ matches c u p) ->
  decode_frame (s_rbuf st) = DFrame f rest ->
  (forall u p, f = FToken u p -> ~ matches c u p) ->
  auth_inv c
   (set_phase PSelect (set_shut true
      (set_wbuf (s_wbuf st ++ fst (encode refuse_frame)) (set_rbuf rest st)))) (tr ++ [ORefused f]).
Proof.
  intros Hv (Hm & Hw & Ho & Hmap & Hout & Htr & Hnb & Hsd & l & Hl & Hwr & Hrest) Hp Hs Hr Hd Hf.
  rewrite Hs in Hrest. destruct Hrest as [Hr0 Hb]. specialize (Hb (or_intror Hp)).
  right. split; [exact Hv|]. split.
  { intros u p. rewrite refused_app. cbn [refused flat_map app]. rewrite Hr0.
    intros [E|[]]. apply Hf. exact E. }
  repeat split; try assumption; cbn [s_phase s_shut set_phase set_shut set_wbuf set_rbuf].
  - apply not_service_app; [exact Htr|]. intros e [<-|[]] F. exact F.
  - discriminate.
  - discriminate.
  - exists (l ++ [refuse_frame]). split.
    { apply Forall_app. split; [exact Hl|]. constructor; [exact I|constructor]. }
    split.
    { rewrite written_app. cbn [written flat_map app].
      rewrite app_nil_r. cbn [s_wbuf set_phase set_shut set_wbuf]. rewrite app_assoc, Hwr.
      symmetry. apply wire_snoc. }
    cbn [s_shut set_phase set_shut].
    split; [apply in_app_iff; right; left; reflexivity|].
    exists f, rest. rewrite refused_app, bytes_read_app. cbn [refused bytes_read flat_map app].
    rewrite Hr0, app_nil_r, Hb. split; [reflexivity|exact Hd].
Qed.

(* Events that change nothing observable for an unauthenticated peer. *)
Lemma unauth_silent c st tr :
  s_verify st = false ->
  (forall u p, In (FToken u p) (refused tr) -> ~ matches c u p) -> unauth st tr ->
  auth_inv c st (tr ++ []).
Proof. intros Hv Hr Hu. rewrite app_nil_r. right. split; [exact Hv|split; [exact Hr|exact Hu]]. Qed.

Lemma auth_step c st tr e :
  auth_inv c st tr -> auth_inv c (fst (step c st e)) (tr ++ snd (step c st e)).
Proof.
  intros [(Hv & Hr & u & p & r & Hd & Hm)|(Hv & Hr & Hu)].
  { left. destruct (step_verified c st e Hv) as [H1 H2].
    split; [exact H1|]. split; [rewrite refused_app, Hr, H2; reflexivity|].
    exists u, p, (r ++ bytes_read (snd (step c st e))).
    split; [|exact Hm]. rewrite bytes_read_app. apply decode_frame_app. exact Hd. }
  pose proof Hu as (Hm & Hw & Ho & Hmap & Hout & Htr & Hnb & Hsd & l & Hl & Hwr & Hrest).
  pose proof (unauth_silent c st tr Hv Hr Hu) as Hsil.
  destruct e as [s v|s d|s rr|h|h| | |b| |n| |]; cbn [step].
  - (* visit: no mapping is registered *)
    rewrite Hm. destruct v; exact Hsil.
  - unfold is_open. rewrite Ho. exact Hsil.
  - destruct (nlen (s_out st) <? out_cap); [|exact Hsil]. cbn [fst snd].
    rewrite app_nil_r. right. split; [exact Hv|]. split; [exact Hr|].
    repeat split; try assumption.
    + cbn. apply Forall_app. split; [exact Hout|]. constructor; [exact I|constructor].
    + exists l. repeat split; assumption.
  - destruct (s_box st h) as [|f q]; [exact Hsil|]. destruct (gone h st); [exact Hsil|].
    cbn [fst snd]. right. split; [exact Hv|].
    split; [rewrite refused_app; cbn [refused flat_map]; rewrite app_nil_r; exact Hr|].
    repeat split; try assumption.
    + apply not_service_app; [exact Htr|]. intros x [<-|[]] F. exact F.
    + exists l. rewrite written_app, refused_app, bytes_read_app.
      cbn [written refused bytes_read flat_map]. rewrite !app_nil_r. repeat split; assumption.
  - cbn [fst snd]. rewrite app_nil_r. right. split; [exact Hv|]. split; [exact Hr|].
    repeat split; try assumption. exists l. repeat split; assumption.
  - rewrite Hw. destruct (s_phase st); exact Hsil.
  - (* an outgoing frame: a close *)
    destruct (s_phase st) eqn:Hp; try exact Hsil.
    destruct (s_out st) as [|f o]; [exact Hsil|]. cbn [fst snd].
    apply Forall_cons_iff in Hout as [Hf Hout].
    rewrite app_nil_r. right. split; [exact Hv|]. split; [exact Hr|].
    unfold after_select. cbn [s_shut set_wbuf set_out].
    repeat split; try assumption; cbn [s_phase s_shut set_phase set_wbuf set_out].
    + destruct (s_shut st); discriminate.
    + intros ->. discriminate.
    + exists (l ++ [f]). split; [apply Forall_app; split; [exact Hl|constructor; [exact Hf|constructor]]|].
      split.
      { cbn [s_wbuf set_phase set_wbuf]. rewrite app_assoc, Hwr. symmetry; apply wire_snoc. }
      destruct (s_shut st).
      * destruct Hrest as [H1 H2]. split; [apply in_app_iff; left; exact H1|exact H2].
      * destruct Hrest as [H1 H2]. split; [exact H1|]. intros _. cbn. apply H2. left; reflexivity.
  - (* read *)
    destruct (s_phase st) eqn:Hp; try exact Hsil.
    destruct b as [|x b].
    + (* end of file *)
      unfold tunnel_closed. rewrite Hmap. cbn [say_bye fst snd app].
      right. split; [exact Hv|].
      split; [rewrite refused_app; cbn [refused flat_map]; rewrite app_nil_r; exact Hr|].
      repeat split; try assumption; cbn [s_phase s_shut set_phase].
      * apply not_service_app; [exact Htr|]. intros y [<-|[]] F. exact F.
      * discriminate.
      * discriminate.
      * exists l. rewrite written_app, refused_app, bytes_read_app.
        cbn [written refused bytes_read flat_map s_wbuf s_shut set_phase]. rewrite !app_nil_r.
        split; [exact Hl|]. split; [exact Hwr|].
        destruct (s_shut st); [exact Hrest|]. destruct Hrest as [H1 H2].
        split; [exact H1|]. intros [E|E]; discriminate.
    + cbn [fst snd]. right. split; [exact Hv|].
      split; [rewrite refused_app; cbn [refused flat_map]; rewrite app_nil_r; exact Hr|].
      unfold after_select. cbn [s_shut set_rbuf].
      repeat split; try assumption; cbn [s_phase s_shut set_phase set_rbuf].
      * apply not_service_app; [exact Htr|]. intros y [<-|[]] F. exact F.
      * destruct (s_shut st); discriminate.
      * intros ->. discriminate.
      * exists l. rewrite written_app, refused_app, bytes_read_app.
        cbn [written refused bytes_read flat_map s_wbuf s_shut set_phase set_rbuf]. rewrite !app_nil_r.
        split; [exact Hl|]. split; [exact Hwr|].
        destruct (s_shut st).
        { destruct Hrest as [H1 (f & r & H2 & H3)]. split; [exact H1|].
          exists f, (r ++ x :: b). split; [exact H2|apply decode_frame_app; exact H3]. }
        { destruct Hrest as [H1 H2]. split; [exact H1|]. intros _. cbn [s_rbuf].
          rewrite H2 by (left; reflexivity). reflexivity. }
  - (* read error *)
    destruct (s_phase st) eqn:Hp; try exact Hsil.
    unfold tunnel_closed. rewrite Hmap. cbn [say_bye fst snd app].
    right. split; [exact Hv|].
    split; [rewrite refused_app; cbn [refused flat_map]; rewrite app_nil_r; exact Hr|].
    repeat split; try assumption; cbn [s_phase s_shut set_phase].
    + apply not_service_app; [exact Htr|]. intros y [<-|[]] F. exact F.
    + discriminate.
    + discriminate.
    + exists l. rewrite written_app, refused_app, bytes_read_app.
      cbn [written refused bytes_read flat_map s_wbuf s_shut set_phase]. rewrite !app_nil_r.
      split; [exact Hl|]. split; [exact Hwr|].
      destruct (s_shut st); [exact Hrest|]. destruct Hrest as [H1 H2].
      split; [exact H1|]. intros [E|E]; discriminate.
  - (* write *)
    destruct (s_phase st) eqn:Hp; try exact Hsil.
    destruct (s_wbuf st) as [|x w] eqn:Hwb; [exact Hsil|].
    set (k := N.to_nat (N.min n (nlen (x :: w)))).
    cbn [s_wbuf set_wbuf].
    assert (Hsplit : firstn k (x :: w) ++ skipn k (x :: w) = x :: w) by apply firstn_skipn.
    destruct (skipn k (x :: w)) as [|y w'] eqn:Hk.
    + destruct (s_shut st) eqn:Hs; cbn [fst snd].
      * right. split; [exact Hv|].
        split; [rewrite refused_app; cbn [refused flat_map]; rewrite app_nil_r; exact Hr|].
        repeat split; try assumption; cbn [s_phase s_shut set_phase set_wbuf].
        { apply not_service_app; [exact Htr|]. intros z [<-|[<-|[]]] F; exact F. }
        { discriminate. }
        { discriminate. }
        exists l. rewrite written_app, refused_app, bytes_read_app.
        cbn [written refused bytes_read flat_map s_wbuf set_phase set_wbuf s_shut]. rewrite !app_nil_r.
        rewrite app_nil_r in Hsplit. rewrite Hsplit, Hs.
        split; [exact Hl|]. split; [exact Hwr|exact Hrest].
      * right. split; [exact Hv|].
        split; [rewrite refused_app; cbn [refused flat_map]; rewrite app_nil_r; exact Hr|].
        unfold after_select; cbn [s_shut set_wbuf]; rewrite Hs.
        repeat split; try assumption; cbn [s_phase s_shut set_phase set_wbuf].
        { apply not_service_app; [exact Htr|]. intros z [<-|[]] F; exact F. }
        { discriminate. }
        { congruence. }
        exists l. rewrite written_app, refused_app, bytes_read_app.
        cbn [written refused bytes_read flat_map s_wbuf set_phase set_wbuf s_shut]. rewrite !app_nil_r.
        rewrite app_nil_r in Hsplit. rewrite Hsplit, Hs.
        split; [exact Hl|]. split; [exact Hwr|]. destruct Hrest as [H1 H2].
        split; [exact H1|]. intros _. apply H2. left; reflexivity.
    + replace (match s_shut st with true => _ | false => _ end)
        with (after_select (set_wbuf (y :: w') st), [OWrote (firstn k (x :: w))])
        by (destruct (s_shut st); reflexivity).
      cbn [fst snd].
      right. split; [exact Hv|].
      split; [rewrite refused_app; cbn [refused flat_map]; rewrite app_nil_r; exact Hr|].
      unfold after_select; cbn [s_shut set_wbuf].
      repeat split; try assumption; cbn [s_phase s_shut set_phase set_wbuf].
      * apply not_service_app; [exact Htr|]. intros z [<-|[]] F; exact F.
      * destruct (s_shut st); discriminate.
      * intros ->; discriminate.
      * exists l. rewrite written_app, refused_app, bytes_read_app.
        cbn [written refused bytes_read flat_map s_wbuf set_phase set_wbuf s_shut]. rewrite !app_nil_r.
        rewrite <- app_assoc, Hsplit.
        split; [exact Hl|]. split; [exact Hwr|].
        destruct (s_shut st); [exact Hrest|]. destruct Hrest as [H1 H2].
        split; [exact H1|]. intros _. apply H2. left; reflexivity.
  - (* write error *)
    destruct (s_phase st) eqn:Hp; try exact Hsil.
    destruct (s_wbuf st) as [|x w] eqn:Hwb; [exact Hsil|]. cbn [fst snd].
    right. split; [exact Hv|].
    split; [rewrite refused_app; cbn [refused flat_map]; rewrite app_nil_r; exact Hr|].
    repeat split; try assumption; cbn [s_phase s_shut set_phase].
    + apply not_service_app; [exact Htr|]. intros y [<-|[]] F. exact F.
    + discriminate.
    + discriminate.
    + exists l. rewrite written_app, refused_app, bytes_read_app.
      cbn [written refused bytes_read flat_map s_wbuf s_shut set_phase]. rewrite !app_nil_r, Hwb.
      split; [exact Hl|]. split; [exact Hwr|].
      destruct (s_shut st); [exact Hrest|]. destruct Hrest as [H1 H2].
      split; [exact H1|]. intros [E|E]; discriminate.
  - (* decode *)
    destruct (s_phase st) as [| |h f|r] eqn:Hp; try exact Hsil.
    2:{ exfalso. exact (Hnb h f eq_refl). }
    destruct (s_shut st) eqn:Hs; [exfalso; exact (Hsd eq_refl eq_refl)|].
    destruct (decode_frame (s_rbuf st)) as [|f rest|e rest|] eqn:Hd.
    + cbn [fst snd]. rewrite app_nil_r. right. split; [exact Hv|]. split; [exact Hr|].
      repeat split; try assumption; cbn [s_phase s_shut set_phase].
      * discriminate.
      * congruence.
      * exists l. cbn [s_wbuf s_shut s_rbuf set_phase]. rewrite Hs.
        split; [exact Hl|]. split; [exact Hwr|]. destruct Hrest as [H1 H2].
        split; [exact H1|]. intros _. apply H2. right; reflexivity.
    + assert (Hu' : unauth st tr) by exact Hu.
      destruct Hrest as [H1 H2]. specialize (H2 (or_intror eq_refl)).
      unfold handle.
      destruct f as [s d|s r|s d|s ms|u p];
        cbn [s_verify set_rbuf s_wbuf]; rewrite Hv; cbn [negb andb fst snd];
        try (apply refuse_ok; try assumption; intros; discriminate).
      destruct (check_succ c u p) eqn:Ec; cbn [fst snd].
      * left. split; [reflexivity|].
        rewrite refused_app, bytes_read_app. cbn [refused bytes_read flat_map]. rewrite !app_nil_r.
        split; [exact H1|]. exists u, p, rest. rewrite H2. split; [exact Hd|].
        apply check_matches. exact Ec.
      * apply refuse_ok; try assumption.
        intros u0 p0 E. injection E as <- <-. apply matches_dec. exact Ec.
    + cbn [fst snd]. right. split; [exact Hv|].
      split; [rewrite refused_app; cbn [refused flat_map]; rewrite app_nil_r; exact Hr|].
      repeat split; try assumption; cbn [s_phase s_shut set_phase set_rbuf].
      * apply not_service_app; [exact Htr|]. intros y [<-|[]] F. exact F.
      * discriminate.
      * discriminate.
      * exists l. rewrite written_app, refused_app, bytes_read_app.
        cbn [written refused bytes_read flat_map s_wbuf s_shut set_phase set_rbuf].
        rewrite !app_nil_r, Hs.
        split; [exact Hl|]. split; [exact Hwr|]. destruct Hrest as [H1 H2].
        split; [exact H1|]. intros [E|E]; discriminate.
    + cbn [fst snd]. right. split; [exact Hv|].
      split; [rewrite refused_app; cbn [refused flat_map]; rewrite app_nil_r; exact Hr|].
      repeat split; try assumption; cbn [s_phase s_shut set_phase].
      * apply not_service_app; [exact Htr|]. intros y [<-|[]] F. exact F.
      * discriminate.
      * discriminate.
      * exists l. rewrite written_app, refused_app, bytes_read_app.
        cbn [written refused bytes_read flat_map s_wbuf s_shut set_phase].
        rewrite !app_nil_r, Hs.
        split; [exact Hl|]. split; [exact Hwr|]. destruct Hrest as [H1 H2].
        split; [exact H1|]. intros [E|E]; discriminate.
Qed.

Lemma auth_init c : c_user c <> None \/ c_pass c <> None -> auth_inv c (s_init c) [].
Proof.
  intros H. right.
  assert (s_verify (s_init c) = false) as Hv.
  { unfold s_init; cbn [s_verify]. destruct (c_user c), (c_pass c); try reflexivity.
    destruct H; congruence. }
  split; [exact Hv|]. split; [intros u p []|].
  split; [reflexivity|]. split; [reflexivity|]. split; [reflexivity|]. split; [reflexivity|].
  split; [constructor|]. split; [intros e []|]. split; [discriminate|]. split; [discriminate|].
  exists []. split; [constructor|]. split; [reflexivity|]. split; reflexivity.
Qed.

Lemma auth_reach c es st tr :
  c_user c <> None \/ c_pass c <> None -> run c (s_init c) es = (st, tr) -> auth_inv c st tr.
Proof.
  intros Hc. apply (run_reach c (auth_inv c)); [apply auth_init; exact Hc|].
  intros. apply auth_step. assumption.
Qed.

Lemma auth_before_service c es st tr :
  c_user c <> None \/ c_pass c <> None -> run c (s_init c) es = (st, tr) ->
  (exists u p fs, frames (bytes_read tr) = FToken u p :: fs /\ matches c u p) \/
  ((forall e, In e tr -> ~ service e) /\
   exists l, Forall is_close l /\ written tr ++ s_wbuf st = wire l).
Proof.
  intros Hc Hrun. destruct (auth_reach c es st tr Hc Hrun) as
    [(_ & _ & u & p & r & Hd & Hm)|(_ & _ & Hu)].
  - left. exists u, p, (frames r). split; [apply frames_step; exact Hd|exact Hm].
  - right. destruct Hu as (_ & _ & _ & _ & _ & Htr & _ & _ & l & Hl & Hwr & _).
    split; [exact Htr|]. exists l. split; assumption.
Qed.

Lemma in_refused f tr : In (ORefused f) tr -> In f (refused tr).
Proof. intros H. unfold refused. apply in_flat_map. exists (ORefused f). split; [exact H|left; reflexivity]. Qed.

Lemma refused_closes c es st tr f :
  c_user c <> None \/ c_pass c <> None -> run c (s_init c) es = (st, tr) ->
  In (ORefused f) tr ->
  refused tr = [f] /\ (exists fs, frames (bytes_read tr) = f :: fs) /\
  (forall u p, f = FToken u p -> ~ matches c u p) /\
  (forall e, In e tr -> ~ service e) /\
  (exists l, Forall is_close l /\ In refuse_frame l /\ written tr ++ s_wbuf st = wire l).
Proof.
  intros Hc Hrun Hin. apply in_refused in Hin.
  destruct (auth_reach c es st tr Hc Hrun) as [(_ & Hr & _)|(_ & Hr & Hu)].
  - rewrite Hr in Hin. destruct Hin.
  - destruct Hu as (_ & _ & _ & _ & _ & Htr & _ & _ & l & Hl & Hwr & Hrest).
    destruct (s_shut st).
    + destruct Hrest as [H1 (f' & r & H2 & H3)]. rewrite H2 in Hin. destruct Hin as [<-|[]].
      split; [exact H2|]. split; [exists (frames r); apply frames_step; exact H3|].
      split; [intros u p ->; apply Hr; rewrite H2; left; reflexivity|].
      split; [exact Htr|]. exists l. repeat split; assumption.
    + destruct Hrest as [H1 _]. rewrite H1 in Hin. destruct Hin.
Qed.
