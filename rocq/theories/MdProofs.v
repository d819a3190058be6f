From Verif Require Import Base Text TextOps ProtModel MdModel.
Open Scope N_scope.

Section Pipe.
  Context (room : N).

  (* T went into the first connection; got came out of the last one *)
  Fixpoint ok (T q : bytes) (l : list stage) (got : bytes) : Prop :=
    match l with
    | [] => T = got ++ q
    | s :: l' => exists passed out, T = passed ++ q /\
        (if sg_dead s then exists lost, passed = out ++ lost else passed = out ++ sg_buf s) /\ ok out (sg_q s) l' got
    end.
  (* ends are passed on only after everything else *)
  Fixpoint wf (e : bool) (q : bytes) (l : list stage) : Prop :=
    match l with
    | [] => True
    | s :: l' =>
      (sg_dead s = false -> (sg_eof s = true -> e = true /\ q = []) /\ (sg_shut s = true -> sg_eof s = true /\ sg_buf s = [])) /\
      sg_end s = sg_shut s || sg_dead s /\ wf (sg_end s) (sg_q s) l'
    end.

  Lemma nlen0 {A} (l : list A) : nlen l = 0 -> l = [].
  Proof. destruct l; [reflexivity|]. rewrite nlen_cons. lia. Qed.

  Lemma ok_prefix : forall l T q got, ok T q l got -> exists r, T = got ++ r.
  Proof.
    induction l as [|s l IH]; intros T q got H; cbn [ok] in H.
    - exists q. exact H.
    - destruct H as (passed & out & -> & A & B). destruct (IH _ _ _ B) as (r & ->).
      destruct (sg_dead s).
      + destruct A as (lost & ->). exists (r ++ lost ++ q). rewrite !app_assoc. reflexivity.
      + subst passed. exists (r ++ sg_buf s ++ q). rewrite !app_assoc. reflexivity.
  Qed.

  Lemma ok_send : forall l T q got b, ok T q l got -> ok (T ++ b) (q ++ b) l got.
  Proof.
    intros [|s l] T q got b H; cbn [ok] in *.
    - subst T. rewrite app_assoc. reflexivity.
    - destruct H as (passed & out & -> & A & B). exists passed, out. rewrite app_assoc. auto.
  Qed.

  Lemma hop_ok o q e s l T got q' s' :
    ok T q (s :: l) got -> hop room o q e s = (q', s') -> wf e q (s :: l) -> ok T q' (s' :: l) got /\ wf e q' (s' :: l).
  Proof.
    intros H Hop W. unfold hop in Hop. destruct (sg_dead s) eqn:D.
    { injection Hop as <- <-. auto. }
    destruct H as (passed & out & HT & A & B). rewrite D in A. destruct W as (W1 & W2 & W3). specialize (W1 D). destruct W1 as (We & Ws).
    rewrite D, orb_false_r in W2.
    destruct o as [n| |n| |].
    - destruct ((0 <? n) && (n <=? nlen q) && (n + nlen (sg_buf s) <=? copy_room) && negb (sg_eof s)) eqn:C.
      + injection Hop as <- <-. apply andb_prop in C as [C C4]. apply negb_true_iff in C4.
        split.
        * cbn [ok sg_dead sg_buf sg_q]. exists (passed ++ firstn (N.to_nat n) q), out. split.
          -- rewrite <- app_assoc, firstn_skipn. exact HT.
          -- split; [rewrite app_assoc, A; reflexivity | exact B].
        * cbn [wf sg_dead sg_buf sg_q sg_eof sg_shut sg_end]. split; [|rewrite orb_false_r; auto]. intros _. split; [discriminate|].
          intros Z. destruct (Ws Z) as (Z1 & _). congruence.
      + injection Hop as <- <-. split; [exists passed, out; rewrite D; auto | cbn [wf]; rewrite D, orb_false_r; auto].
    - destruct (e && (nlen q =? 0) && negb (sg_eof s)) eqn:C.
      + injection Hop as <- <-. apply andb_prop in C as [C C3]. apply andb_prop in C as [C1 C2]. apply N.eqb_eq in C2. apply nlen0 in C2.
        split; [exists passed, out; auto|]. cbn [wf sg_dead sg_buf sg_q sg_eof sg_shut sg_end]. rewrite orb_false_r.
        split; [|auto]. intros _. split; [auto|]. intros Z. destruct (Ws Z). auto.
      + injection Hop as <- <-. split; [exists passed, out; rewrite D; auto | cbn [wf]; rewrite D, orb_false_r; auto].
    - destruct ((0 <? n) && (n <=? nlen (sg_buf s)) && (n + nlen (sg_q s) <=? room) && negb (sg_shut s)) eqn:C.
      + injection Hop as <- <-. apply andb_prop in C as [C C4]. apply negb_true_iff in C4.
        split.
        * cbn [ok sg_dead sg_buf sg_q]. exists passed, (out ++ firstn (N.to_nat n) (sg_buf s)). split; [exact HT|]. split.
          -- rewrite <- app_assoc, firstn_skipn. exact A.
          -- apply ok_send, B.
        * cbn [wf sg_dead sg_buf sg_q sg_eof sg_shut sg_end]. rewrite orb_false_r. split; [|split; [exact W2|]].
          -- intros _. split; [exact We|]. congruence.
          -- rewrite W2, C4 in W3 |- *. destruct l as [|t l]; [exact I|]. cbn [wf] in W3 |- *. destruct W3 as (V1 & V2).
             split; [|exact V2]. intros Dt. destruct (V1 Dt) as (V3 & V4). split; [|exact V4]. intros Z. destruct (V3 Z). discriminate.
      + injection Hop as <- <-. split; [exists passed, out; rewrite D; auto | cbn [wf]; rewrite D, orb_false_r; auto].
    - destruct (sg_eof s && (nlen (sg_buf s) =? 0) && negb (sg_shut s)) eqn:C.
      + injection Hop as <- <-. apply andb_prop in C as [C C3]. apply andb_prop in C as [C1 C2]. apply N.eqb_eq in C2. apply nlen0 in C2.
        rewrite C2 in A. split; [exists passed, out; auto|]. cbn [wf sg_dead sg_buf sg_q sg_eof sg_shut sg_end].
        split; [auto|]. split; [reflexivity|]. apply negb_true_iff in C3. rewrite W2, C3 in W3.
        destruct l as [|t l]; [exact I|]. cbn [wf] in W3 |- *. destruct W3 as (V1 & V2). split; [|exact V2].
        intros Dt. destruct (V1 Dt) as (V3 & V4). split; [|exact V4]. intros Z. destruct (V3 Z). discriminate.
      + injection Hop as <- <-. split; [exists passed, out; rewrite D; auto | cbn [wf]; rewrite D, orb_false_r; auto].
    - injection Hop as <- <-. split.
      + exists passed, out. cbn [sg_dead sg_q]. split; [exact HT|]. split; [exists (sg_buf s); exact A | exact B].
      + cbn [wf sg_dead sg_buf sg_q sg_eof sg_shut sg_end]. rewrite orb_true_r. split; [discriminate|]. split; [reflexivity|].
        destruct l as [|t l]; [exact I|]. cbn [wf] in W3 |- *. destruct W3 as (V1 & V2). split; [|exact V2].
        intros Dt. destruct (V1 Dt) as (V3 & V4). split; [|exact V4]. intros Z. destruct (V3 Z). auto.
  Qed.

  Lemma act_ok : forall i o l T q e got q' l',
    ok T q l got -> wf e q l -> act room i o q e l = (q', l') -> ok T q' l' got /\ wf e q' l'.
  Proof.
    induction i as [|i IH]; intros o l T q e got q' l' H W Q; destruct l as [|s l]; cbn [act] in Q.
    - injection Q as <- <-. auto.
    - destruct (hop room o q e s) as [q1 s1] eqn:Hp. injection Q as <- <-. eapply hop_ok; eauto.
    - injection Q as <- <-. auto.
    - destruct (act room i o (sg_q s) (sg_end s) l) as [sq l2] eqn:Ha. injection Q as <- <-.
      destruct H as (passed & out & HT & A & B). destruct W as (W1 & W2 & W3).
      destruct (IH _ _ _ _ _ _ _ _ B W3 Ha) as (B' & W'). split.
      + exists passed, out. auto.
      + cbn [wf sg_dead sg_buf sg_q sg_eof sg_shut sg_end]. auto.
  Qed.

  Lemma take_ok : forall l T q e got n,
    ok T q l got -> wf e q l ->
    let x := fst (last_q q e l) in
    let '(q', l') := set_last (skipn n x) q l in
    ok T q' l' (got ++ firstn n x) /\ wf e q' l'.
  Proof.
    induction l as [|s l IH]; intros T q e got n H W x.
    - cbn in *. subst T. split; [|auto]. rewrite <- app_assoc. unfold x. rewrite firstn_skipn. reflexivity.
    - cbn [last_q] in x. cbn [set_last].
      destruct H as (passed & out & HT & A & B). destruct W as (W1 & W2 & W3).
      specialize (IH _ _ _ _ n B W3). fold x in IH. cbv zeta in IH. fold x in IH.
      destruct (set_last (skipn n x) (sg_q s) l) as [sq l2]. destruct IH as (B' & W'). split.
      + exists passed, out. auto.
      + cbn [wf sg_dead sg_buf sg_q sg_eof sg_shut sg_end]. auto.
  Qed.

  (* the whole pipe *)
  Definition good (T : bytes) (p : pipe) : Prop :=
    ok T (pp_q p) (pp_stages p) (concat (pp_got p)) /\ wf (pp_end p) (pp_q p) (pp_stages p) /\
    (pp_over p = true -> last_q (pp_q p) (pp_end p) (pp_stages p) = ([], true)).

  Lemma last_end_q : forall l q e, wf e q l -> last_q q e l = ([], true) -> forall i o q' l', act room i o q e l = (q', l') -> last_q q' e l' = ([], true).
  Proof.
    induction l as [|s l IH]; intros q e W L i o q' l' Q.
    - destruct i; cbn in Q; injection Q as <- <-; exact L.
    - destruct W as (W1 & W2 & W3). cbn [last_q] in L. destruct i as [|i]; cbn [act] in Q.
      + destruct (hop room o q e s) as [q1 s1] eqn:Hp. injection Q as <- <-. cbn [last_q].
        unfold hop in Hp. destruct (sg_dead s) eqn:D; [injection Hp as <- <-; exact L|]. rewrite orb_false_r in W2.
        assert (E : forall o, last_q (sg_q s) o l = ([], true) \/ l = []).
        { intros o'. destruct l as [|t l]; [auto|left]. exact L. }
        destruct o as [n| |n| |];
          repeat match type of Hp with (if ?c then _ else _) = _ => destruct c eqn:? end; injection Hp as <- <-; cbn [sg_q sg_end]; try exact L.
        * apply andb_prop in Heqb as [C C4]. apply negb_true_iff in C4. rewrite C4 in W2.
          destruct l as [|t l]; cbn [last_q] in L |- *; [|exact L]. rewrite W2 in L. discriminate.
        * destruct l as [|t l]; cbn [last_q] in L |- *; [|exact L]. injection L as -> _. reflexivity.
        * destruct l as [|t l]; cbn [last_q] in L |- *; [|exact L]. injection L as -> _. reflexivity.
      + destruct (act room i o (sg_q s) (sg_end s) l) as [sq l2] eqn:Ha. injection Q as <- <-. cbn [last_q sg_q sg_end].
        eapply IH; eauto.
  Qed.

  Lemma last_set : forall l q e x, last_q (fst (set_last x q l)) e (snd (set_last x q l)) = (x, snd (last_q q e l)).
  Proof.
    induction l as [|s l IH]; intros q e x; cbn [last_q set_last]; [reflexivity|].
    specialize (IH (sg_q s) (sg_end s) x). destruct (set_last x (sg_q s) l) as [sq l2]. cbn in IH |- *. exact IH.
  Qed.

  Definition new_sent (p : pipe) (e : pev) : bytes := match e with ESend b => if pp_end p then [] else b | _ => [] end.

  Lemma step_good T p e : good T p -> good (T ++ new_sent p e) (pstep room p e).
  Proof.
    intros (O & W & V). destruct e as [b| |i o|n|]; cbn [new_sent pstep]; rewrite ?app_nil_r.
    - destruct (pp_end p) eqn:E; [rewrite app_nil_r; split; [exact O | split; [rewrite E; exact W | rewrite E; exact V]]|].
      unfold good. cbn [pp_q pp_end pp_stages pp_got pp_over]. split; [apply ok_send, O|]. split.
      + destruct (pp_stages p) as [|s l]; [exact I|]. destruct W as (W1 & W2). split; [|exact W2].
        intros D. destruct (W1 D) as (X & Y). split; [|exact Y]. intros Z. destruct (X Z). discriminate.
      + intros Z. specialize (V Z). destruct (pp_stages p) as [|s l]; [cbn in V; congruence | exact V].
    - unfold good. cbn [pp_q pp_end pp_stages pp_got pp_over]. split; [exact O|]. split.
      + destruct (pp_stages p) as [|s l]; [exact I|]. destruct W as (W1 & W2). split; [|exact W2].
        intros D. destruct (W1 D) as (X & Y). split; [|exact Y]. intros Z. destruct (X Z). auto.
      + intros Z. specialize (V Z). destruct (pp_stages p) as [|s l]; [cbn in V |- *; congruence | exact V].
    - destruct (act room i o (pp_q p) (pp_end p) (pp_stages p)) as [q l] eqn:Ha.
      destruct (act_ok _ _ _ _ _ _ _ _ _ O W Ha) as (O' & W'). unfold good. cbn [pp_q pp_end pp_stages pp_got pp_over].
      split; [exact O'|]. split; [exact W'|]. intros Z. exact (last_end_q _ _ _ W (V Z) _ _ _ _ Ha).
    - destruct (last_q (pp_q p) (pp_end p) (pp_stages p)) as [x e] eqn:L.
      destruct ((0 <? n) && (n <=? nlen x) && negb (pp_over p)) eqn:C; [|unfold good; rewrite L; auto].
      pose proof (take_ok _ _ _ _ _ (N.to_nat n) O W) as K. rewrite L in K. cbn [fst] in K. cbv zeta in K.
      destruct (set_last (skipn (N.to_nat n) x) (pp_q p) (pp_stages p)) as [q l]. destruct K as (K1 & K2).
      unfold good. cbn [pp_q pp_end pp_stages pp_got pp_over]. split.
      + rewrite concat_app. cbn [concat]. rewrite app_nil_r. exact K1.
      + split; [exact K2|]. intros Z. rewrite Z, andb_false_r in C. discriminate.
    - destruct (last_q (pp_q p) (pp_end p) (pp_stages p)) as [x e] eqn:L.
      destruct (e && (nlen x =? 0)) eqn:C; [|unfold good; rewrite L; auto].
      apply andb_prop in C as [-> C]. apply N.eqb_eq in C. apply nlen0 in C. subst x.
      unfold good. cbn [pp_q pp_end pp_stages pp_got pp_over]. auto.
  Qed.

  Fixpoint fed (p : pipe) (es : list pev) : bytes :=
    match es with [] => [] | e :: es' => new_sent p e ++ fed (pstep room p e) es' end.

  Lemma run_good : forall es T p, good T p -> good (T ++ fed p es) (prun room p es).
  Proof.
    induction es as [|e es IH]; intros T p G; cbn [fed prun fold_left].
    - rewrite app_nil_r. exact G.
    - rewrite app_assoc. apply IH, step_good, G.
  Qed.

  Lemma good0 k : good [] (pipe0 k).
  Proof.
    unfold good, pipe0. cbn [pp_q pp_end pp_stages pp_got pp_over concat].
    split; [|split; [|discriminate]].
    - induction k as [|k IH]; cbn [repeat ok]; [reflexivity|]. exists [], []. cbn [stage0 sg_dead sg_buf sg_q]. auto.
    - generalize (@nil N) at 1, false at 1. induction k as [|k IH]; intros q e; cbn [repeat wf]; [exact I|]. cbn [stage0 sg_dead sg_buf sg_q sg_eof sg_shut sg_end].
      split; [split; discriminate|]. split; [reflexivity|]. apply IH.
  Qed.

  (* nothing moves *)
  Definition still_l (q : bytes) (e : bool) (l : list stage) : Prop := forall i o, o <> ODie -> act room i o q e l = (q, l).
  Definition alive (l : list stage) : Prop := Forall (fun s => sg_dead s = false) l.

  Lemma still_tail q e s l : still_l q e (s :: l) -> still_l (sg_q s) (sg_end s) l.
  Proof.
    intros H i o Ho. specialize (H (S i) o Ho). cbn [act] in H.
    destruct (act room i o (sg_q s) (sg_end s) l) as [sq l2]. injection H as H1 H2. subst l2. destruct s; cbn in H1 |- *. injection H1 as ->. reflexivity.
  Qed.

  Lemma skipn_shorter (n : N) (b : bytes) : 0 < n -> n <= nlen b -> skipn (N.to_nat n) b <> b.
  Proof. intros A B E. apply (f_equal (@length N)) in E. rewrite skipn_length in E. unfold nlen in B. lia. Qed.

  Lemma empties : 0 < room -> forall l q e, wf e q l -> alive l -> still_l q e l -> fst (last_q q e l) = [] ->
    q = [] /\ Forall (fun s => sg_buf s = [] /\ sg_q s = []) l.
  Proof.
    intros R. induction l as [|s l IH]; intros q e W A St L; [auto|].
    destruct W as (W1 & W2 & W3). inversion A as [|? ? D A']; subst. destruct (W1 D) as (We & Ws).
    destruct (IH _ _ W3 A' (still_tail _ _ _ _ St) L) as (Q & F).
    assert (B : sg_buf s = []).
    { destruct (sg_buf s) as [|b r] eqn:Bf; [reflexivity|]. exfalso.
      pose proof (St O (OWrite 1) ltac:(discriminate)) as H. cbn [act] in H. unfold hop in H. rewrite D, Bf, Q in H.
      destruct (sg_shut s) eqn:Sh; [destruct (Ws eq_refl); discriminate|].
      replace (1 <=? nlen (b :: r)) with true in H by (symmetry; apply N.leb_le; unfold nlen; cbn [length]; lia).
      replace (1 + nlen (@nil N) <=? room) with true in H by (symmetry; apply N.leb_le; change (nlen (@nil N)) with 0; lia).
      cbn in H. injection H as H. apply (f_equal sg_q) in H. cbn in H. rewrite Q in H. discriminate. }
    assert (E : q = []).
    { destruct q as [|b r] eqn:Bf; [reflexivity|]. exfalso.
      pose proof (St O (ORead 1) ltac:(discriminate)) as H. cbn [act] in H. unfold hop in H. rewrite D, B in H.
      destruct (sg_eof s) eqn:Ef; [destruct (We eq_refl); discriminate|].
      replace (1 <=? nlen (b :: r)) with true in H by (symmetry; apply N.leb_le; unfold nlen; cbn [length]; lia).
      cbn in H. injection H as H _. apply (f_equal (@length N)) in H. cbn in H. lia. }
    auto.
  Qed.

  Lemma ends_alive : 0 < room -> forall l q e, wf e q l -> alive l -> still_l q e l -> fst (last_q q e l) = [] -> e = true -> snd (last_q q e l) = true.
  Proof.
    intros R. induction l as [|s l IH]; intros q e W A St L E; [exact E|].
    destruct (empties R _ _ _ W A St L) as (Q & F). inversion F as [|? ? (B & Sq) F']; subst.
    destruct W as (W1 & W2 & W3). inversion A as [|? ? D A']; subst. destruct (W1 D) as (We & Ws).
    assert (Ef : sg_eof s = true).
    { destruct (sg_eof s) eqn:Ef; [reflexivity|]. exfalso. pose proof (St O OEof ltac:(discriminate)) as H. cbn [act] in H. unfold hop in H.
      rewrite D, Ef in H. cbn in H. injection H as H. apply (f_equal sg_eof) in H. cbn in H. congruence. }
    assert (Sh : sg_shut s = true).
    { destruct (sg_shut s) eqn:Sh; [reflexivity|]. exfalso. pose proof (St O OShut ltac:(discriminate)) as H. cbn [act] in H. unfold hop in H.
      rewrite D, Ef, Sh, B in H. cbn in H. injection H as H. apply (f_equal sg_shut) in H. cbn in H. congruence. }
    cbn [last_q]. apply IH; auto.
    - apply (still_tail _ _ _ _ St).
    - rewrite W2, Sh. reflexivity.
  Qed.

  Lemma ends_dead : 0 < room -> forall l q e, wf e q l -> still_l q e l -> fst (last_q q e l) = [] ->
    Exists (fun s => sg_dead s = true) l -> snd (last_q q e l) = true.
  Proof.
    intros R. induction l as [|s l IH]; intros q e W St L X; [inversion X|].
    destruct (Exists_dec (fun s => sg_dead s = true) l ltac:(intros t; apply Bool.bool_dec)) as [Y|Y].
    - destruct W as (_ & _ & W3). cbn [last_q]. apply IH; auto. apply (still_tail _ _ _ _ St).
    - inversion X as [? ? D|? ? Z]; subst; [|contradiction]. destruct W as (_ & W2 & W3). cbn [last_q].
      apply ends_alive; auto.
      + unfold alive. rewrite Forall_forall. intros t Ht. destruct (sg_dead t) eqn:Dt; [|reflexivity]. exfalso. apply Y. apply Exists_exists. eauto.
      + apply (still_tail _ _ _ _ St).
      + rewrite W2, D, orb_true_r. reflexivity.
  Qed.

  Lemma ok_empty : forall l T q got, alive l -> ok T q l got -> q = [] -> Forall (fun s => sg_buf s = [] /\ sg_q s = []) l -> T = got.
  Proof.
    induction l as [|s l IH]; intros T q got A O Q F; cbn [ok] in O.
    - subst. apply app_nil_r.
    - destruct O as (passed & out & HT & X & B). inversion A as [|? ? D A']; subst. inversion F as [|? ? (Bf & Sq) F']; subst.
      rewrite D in X. rewrite X, Bf, !app_nil_r. eapply IH; eauto.
  Qed.

  Lemma end_back : forall l q e, wf e q l -> alive l -> snd (last_q q e l) = true -> e = true.
  Proof.
    induction l as [|s l IH]; intros q e W A L; [exact L|].
    destruct W as (W1 & W2 & W3). inversion A as [|? ? D A']; subst. destruct (W1 D) as (We & Ws).
    specialize (IH _ _ W3 A' L). rewrite IH, D, orb_false_r in W2. destruct (Ws (eq_sym W2)) as (Ef & _). apply We, Ef.
  Qed.

  (* which nodes are dead *)
  Lemma hop_dead o q e s : sg_dead (snd (hop room o q e s)) = (sg_dead s || match o with ODie => true | _ => false end).
  Proof. unfold hop. destruct (sg_dead s) eqn:D; [exact D|]. destruct o; repeat match goal with |- context [if ?c then _ else _] => destruct c end; cbn; auto. Qed.
  Lemma act_length : forall i o q e l, length (snd (act room i o q e l)) = length l.
  Proof.
    induction i as [|i IH]; intros o q e [|s l]; cbn [act]; auto.
    - destruct (hop room o q e s). reflexivity.
    - specialize (IH o (sg_q s) (sg_end s) l). destruct (act room i o (sg_q s) (sg_end s) l). cbn in *. congruence.
  Qed.
  Lemma act_alive : forall i o q e l, o <> ODie -> alive l -> alive (snd (act room i o q e l)).
  Proof.
    induction i as [|i IH]; intros o q e [|s l] Ho A; cbn [act]; auto; inversion A as [|? ? D A']; subst.
    - pose proof (hop_dead o q e s) as H. destruct (hop room o q e s) as [q1 s1]. cbn in *. constructor; [|exact A']. rewrite H, D. destruct o; auto. congruence.
    - specialize (IH o (sg_q s) (sg_end s) l Ho A'). destruct (act room i o (sg_q s) (sg_end s) l). cbn in *. constructor; auto.
  Qed.
  Lemma act_dead : forall i o q e l, Exists (fun s => sg_dead s = true) l -> Exists (fun s => sg_dead s = true) (snd (act room i o q e l)).
  Proof.
    induction i as [|i IH]; intros o q e [|s l] X; cbn [act]; auto.
    - pose proof (hop_dead o q e s) as H. destruct (hop room o q e s) as [q1 s1]. cbn in *. inversion X as [? ? D|? ? Z]; subst; [left; rewrite H, D; reflexivity | right; exact Z].
    - specialize (IH o (sg_q s) (sg_end s) l). destruct (act room i o (sg_q s) (sg_end s) l). cbn in *. inversion X; subst; [left | right]; auto.
  Qed.
  Lemma act_dies : forall i q e l, (i < length l)%nat -> Exists (fun s => sg_dead s = true) (snd (act room i ODie q e l)).
  Proof.
    induction i as [|i IH]; intros q e [|s l] Hi; cbn [act]; cbn in Hi; try lia.
    - pose proof (hop_dead ODie q e s) as H. destruct (hop room ODie q e s) as [q1 s1]. cbn in *. left. rewrite H, orb_true_r. reflexivity.
    - specialize (IH (sg_q s) (sg_end s) l ltac:(lia)). destruct (act room i ODie (sg_q s) (sg_end s) l). cbn in *. right. auto.
  Qed.
  Lemma set_last_length : forall l x q, length (snd (set_last x q l)) = length l.
  Proof. induction l as [|s l IH]; intros x q; cbn [set_last]; auto. specialize (IH x (sg_q s)). destruct (set_last x (sg_q s) l). cbn in *. congruence. Qed.
  Lemma set_last_dead : forall l x q, map sg_dead (snd (set_last x q l)) = map sg_dead l.
  Proof. induction l as [|s l IH]; intros x q; cbn [set_last]; auto. specialize (IH x (sg_q s)). destruct (set_last x (sg_q s) l). cbn in *. congruence. Qed.
End Pipe.
