From Verif Require Import Base CtlModel CtlSpec.
From Coq Require Import ZArith.
Open Scope N_scope.

Lemma setg_length : forall l i g, length (setg l i g) = length l.
Proof. induction l; intros [|i] g; simpl; auto. Qed.
Lemma nth_setg : forall l i g j,
  nth_error (setg l i g) j = if Nat.eqb i j then match nth_error l j with Some _ => Some g | None => None end else nth_error l j.
Proof.
  induction l; intros i g j; destruct i, j; simpl; auto.
  - destruct (Nat.eqb i j); auto.
Qed.
Lemma nth_setg_same : forall l i g x, nth_error l i = Some x -> nth_error (setg l i g) i = Some g.
Proof. intros. rewrite nth_setg, Nat.eqb_refl, H. reflexivity. Qed.
Lemma nth_setg_other : forall l i g j, i <> j -> nth_error (setg l i g) j = nth_error l j.
Proof. intros. rewrite nth_setg. destruct (Nat.eqb_spec i j); [contradiction|reflexivity]. Qed.

Lemma crun_app : forall m e1 e2 s, crun m (e1 ++ e2) s =
  (fst (crun m e2 (fst (crun m e1 s))), snd (crun m e1 s) ++ snd (crun m e2 (fst (crun m e1 s)))).
Proof.
  induction e1; intros; simpl.
  - destruct (crun m e2 s); reflexivity.
  - destruct (cstep m a s) as [s1 o1]. rewrite IHe1. destruct (crun m e1 s1) as [s2 o2]. simpl.
    destruct (crun m e2 s2). simpl. rewrite app_assoc. reflexivity.
Qed.
Lemma after_snoc : forall m c evs e, after m c (evs ++ [e]) = fst (cstep m e (after m c evs)).
Proof. intros. unfold after. rewrite crun_app. simpl. destruct (cstep m e _); reflexivity. Qed.
Lemma outs_snoc : forall m c evs e, outs m c (evs ++ [e]) = outs m c evs ++ snd (cstep m e (after m c evs)).
Proof. intros. unfold outs, after. rewrite crun_app. simpl. destruct (cstep m e _); simpl. rewrite app_nil_r. reflexivity. Qed.
Lemma after_app : forall m c e1 e2, after m c (e1 ++ e2) = fst (crun m e2 (after m c e1)).
Proof. intros. unfold after. rewrite crun_app. reflexivity. Qed.

(* Shape of the state. *)
Definition prev_ok (l : list gen) : Prop := forall i g, nth_error l i = Some g -> g_prev g = match i with O => None | S j => Some j end.
Definition shape (s : cst) : Prop := (1 <= length (s_gens s))%nat /\ s_cur s = Some (pred (length (s_gens s))) /\ prev_ok (s_gens s)
  /\ match s_hold s with Some i => (i < length (s_gens s))%nat | None => True end.

Lemma prev_ok_setg : forall l i g x, prev_ok l -> nth_error l i = Some x -> g_prev g = g_prev x -> prev_ok (setg l i g).
Proof.
  intros l i g x H Hx E j y Hy. rewrite nth_setg in Hy. destruct (Nat.eqb_spec i j) as [<-|N].
  - rewrite Hx in Hy. injection Hy as <-. rewrite E. apply H. exact Hx.
  - apply H. exact Hy.
Qed.

(* What one step can do to the list of generations: nothing, change the phase of one, tell one, both, or append one. *)
Lemma send_close_cases : forall i s s', send_close i s = Some s' ->
  s' = s \/ exists g, nth_error (s_gens s) i = Some g /\ listens (g_phase g) = true /\ g_msg g = false /\ s' = put i (told g) s.
Proof.
  unfold send_close. intros i s s' H. destruct (nth_error (s_gens s) i) as [g|] eqn:E; [|left; congruence].
  destruct (listens (g_phase g)) eqn:L; simpl in H; [|left; congruence].
  destruct (g_msg g) eqn:M; [discriminate|]. right. exists g. repeat split; auto. congruence.
Qed.

Lemma shape_put : forall s i g x, shape s -> nth_error (s_gens s) i = Some x -> g_prev g = g_prev x -> shape (put i g s).
Proof.
  intros s i g x [A [B [C D]]] Hx E. unfold shape, put, with_gens; simpl. rewrite setg_length. repeat split; auto.
  eapply prev_ok_setg; eauto.
Qed.
Lemma shape_send : forall i s s', shape s -> send_close i s = Some s' -> shape s'.
Proof.
  intros i s s' H E. destruct (send_close_cases _ _ _ E) as [->|[g [A [_ [_ ->]]]]]; auto. eapply shape_put; eauto.
Qed.
Lemma nth_some_lt : forall {A} (l : list A) i x, nth_error l i = Some x -> (i < length l)%nat.
Proof. intros. apply nth_error_Some. congruence. Qed.
Lemma nth_snoc : forall {A} (l : list A) x i y, nth_error (l ++ [x]) i = Some y ->
  nth_error l i = Some y \/ (i = length l /\ y = x).
Proof.
  intros A l x i y H. destruct (Nat.lt_ge_cases i (length l)) as [L|L].
  - rewrite nth_error_app1 in H by exact L. auto.
  - rewrite nth_error_app2 in H by exact L. right. destruct (i - length l)%nat eqn:E.
    + simpl in H. split; [lia|congruence].
    + simpl in H. destruct n; discriminate.
Qed.

Lemma shape_boot : forall c, shape (boot c).
Proof.
  intro c. unfold shape, boot; simpl. repeat split; auto. intros i g H. destruct i as [|[|i]]; simpl in H; try discriminate.
  injection H as <-. reflexivity.
Qed.

Ltac step_cases e s :=
  unfold cstep; destruct (s_over s) eqn:?Ov; [|destruct e as [i p|i|i|i|i| | |oc| | | | ]].

Lemma shape_step : forall m e s, shape s -> shape (fst (cstep m e s)).
Proof.
  intros m e s H. step_cases e s; simpl; auto.
  - destruct (nth_error (s_gens s) i) as [g|] eqn:E; simpl; auto. destruct (g_phase g) eqn:P; simpl; auto.
    destruct p; simpl; try (eapply shape_put; eauto; fail). exact H.
  - destruct (nth_error (s_gens s) i) as [g|] eqn:E; simpl; auto. destruct (g_phase g) eqn:P; simpl; auto.
    destruct (g_prev g) as [j|] eqn:Pr.
    + destruct (send_close j s) as [s'|] eqn:S; simpl; auto.
      assert (shape s') by (eapply shape_send; eauto).
      destruct (send_close_cases _ _ _ S) as [->|[x [A [_ [_ ->]]]]].
      * eapply shape_put; eauto.
      * destruct (Nat.eq_dec j i) as [->|N].
        -- eapply (shape_put _ _ _ (told x)); eauto. unfold put, with_gens; simpl. eapply nth_setg_same; eauto.
           rewrite E in A. injection A as <-. reflexivity.
        -- eapply (shape_put _ _ _ g); eauto. unfold put, with_gens; simpl. rewrite nth_setg_other; auto.
    + simpl. eapply shape_put; eauto.
  - destruct (nth_error (s_gens s) i) as [g|] eqn:E; simpl; auto. destruct (g_phase g) eqn:P; simpl; auto.
    destruct (g_msg g || negb (has_sender i s)); simpl; auto. eapply shape_put; eauto.
  - destruct (nth_error (s_gens s) i) as [g|] eqn:E; simpl; auto. destruct (g_phase g) eqn:P; simpl; auto. eapply shape_put; eauto.
  - destruct (nth_error (s_gens s) i) as [g|] eqn:E; simpl; auto. destruct (g_phase g) eqn:P; simpl; auto.
    destruct (s_sig s); simpl; auto. exact (shape_put s i (move Gone g) g H E eq_refl).
  - destruct m; simpl; auto. + destruct (s_sig s && negb (s_taken s)); simpl; auto. + destruct (s_sig s); simpl; auto.
  - destruct m, (s_hold s) eqn:Hh; simpl; auto. destruct (s_taken s); simpl; auto.
    destruct (s_count s - 1 <=? 0)%Z; simpl; (destruct H as [A [B [C D]]]; unfold shape; simpl; auto).
  - destruct m, (s_hold s) eqn:Hh; simpl; auto. destruct oc; simpl; auto.
    destruct H as [A [B [C D]]]. unfold shape; simpl. rewrite app_length; simpl.
    repeat split; auto; [lia|f_equal; lia|]. intros i g Hg. destruct (nth_snoc _ _ _ _ Hg) as [Y|[-> ->]]; [apply C; exact Y|].
    simpl. rewrite B. destruct (length (s_gens s)); [lia|reflexivity].
  - destruct m, (s_hold s) eqn:Hh; simpl; auto. destruct (s_cur s) as [i|] eqn:Ec; simpl; auto.
    destruct (send_close i s) eqn:S; simpl; [eapply shape_send; eauto|].
    destruct H as [A [B [C D]]]. unfold shape; simpl. rewrite B in Ec. injection Ec as <-. repeat split; auto. lia.
  - destruct (s_hold s) as [i|] eqn:Hh; simpl; auto. destruct (send_close i s) as [s'|] eqn:S; simpl; auto.
    assert (shape s') as [A [B [C D]]] by (eapply shape_send; eauto). unfold shape; simpl. auto.
  - destruct m, (s_hold s); simpl; auto.
Qed.
Lemma shape_after : forall m c evs, shape (after m c evs).
Proof.
  intros m c evs. induction evs as [|e evs IH] using rev_ind; [apply shape_boot|]. rewrite after_snoc. apply shape_step, IH.
Qed.

(* Who has a sender for i? *)
Lemma has_sender_last : forall s, shape s -> has_sender (pred (length (s_gens s))) s = true.
Proof. intros s [A [B _]]. unfold has_sender. rewrite B, Nat.eqb_refl. reflexivity. Qed.
Lemma has_sender_next : forall s i g, shape s -> nth_error (s_gens s) (S i) = Some g -> keeps (g_phase g) = true -> has_sender i s = true.
Proof.
  intros s i g [_ [_ [C _]]] H K. unfold has_sender. apply orb_true_iff. right. apply existsb_exists. exists g. split.
  - eapply nth_error_In; eauto.
  - rewrite K, (C _ _ H), Nat.eqb_refl. reflexivity.
Qed.
Lemma has_sender_inv : forall s i, shape s -> has_sender i s = true ->
  i = pred (length (s_gens s)) \/ exists g, nth_error (s_gens s) (S i) = Some g /\ keeps (g_phase g) = true.
Proof.
  intros s i [A [B [C _]]] H. unfold has_sender in H. rewrite B in H. apply orb_true_iff in H. destruct H as [H|H].
  - left. apply Nat.eqb_eq in H. exact H.
  - right. apply existsb_exists in H. destruct H as [g [I K]]. apply andb_true_iff in K. destruct K as [K P].
    apply In_nth_error in I. destruct I as [k I]. rewrite (C _ _ I) in P. destruct k as [|k]; [discriminate|].
    apply Nat.eqb_eq in P. subst k. eauto.
Qed.

(* Counting. *)
Definition live (g : gen) : Z := match g_phase g with Gone => 0%Z | _ => 1%Z end.
Definition b2z (b : bool) : Z := if b then 1%Z else 0%Z.
Fixpoint livesum (l : list gen) : Z := match l with [] => 0%Z | g :: l' => (live g + livesum l')%Z end.
Lemma live_nonneg : forall g, (0 <= live g <= 1)%Z.
Proof. intro g. unfold live. destruct (g_phase g); lia. Qed.
Lemma livesum_nonneg : forall l, (0 <= livesum l)%Z.
Proof. induction l; simpl; [lia|]. pose proof (live_nonneg a). lia. Qed.
Lemma livesum_setg : forall l i g x, nth_error l i = Some x -> livesum (setg l i g) = (livesum l - live x + live g)%Z.
Proof.
  induction l; intros [|i] g x H; simpl in *; try discriminate.
  - injection H as ->. lia.
  - rewrite (IHl _ g _ H). lia.
Qed.
Lemma livesum_app : forall l1 l2, livesum (l1 ++ l2) = (livesum l1 + livesum l2)%Z.
Proof. induction l1; intros; simpl; [lia|]. rewrite IHl1. lia. Qed.
Lemma livesum_zero : forall l, livesum l = 0%Z -> forall i g, nth_error l i = Some g -> g_phase g = Gone.
Proof.
  induction l; intros H i g Hg; [destruct i; discriminate|]. simpl in H.
  pose proof (live_nonneg a). pose proof (livesum_nonneg l). destruct i; simpl in Hg.
  - injection Hg as ->. unfold live in *. destruct (g_phase g); try lia. reflexivity.
  - eapply IHl; eauto. lia.
Qed.
Lemma livesum_one : forall l i g, nth_error l i = Some g -> g_phase g <> Gone -> (1 <= livesum l)%Z.
Proof.
  induction l; intros i g Hg N; [destruct i; discriminate|]. simpl.
  pose proof (live_nonneg a). pose proof (livesum_nonneg l). destruct i; simpl in Hg.
  - injection Hg as ->. unfold live. destruct (g_phase g); try lia. contradiction.
  - specialize (IHl _ _ Hg N). lia.
Qed.

Definition counted (s : cst) : Prop :=
  if s_over s then forall i g, nth_error (s_gens s) i = Some g -> g_phase g = Gone
  else (s_count s = livesum (s_gens s) + b2z (s_sig s) + b2z (s_taken s) /\ 1 <= s_count s)%Z.

Lemma live_move : forall ph g, live (move ph g) = match ph with Gone => 0%Z | _ => 1%Z end.
Proof. reflexivity. Qed.
Lemma live_told : forall g, live (told g) = live g.
Proof. reflexivity. Qed.
Lemma counted_put : forall s i g x, s_over s = false -> counted s -> nth_error (s_gens s) i = Some x -> live g = live x -> counted (put i g s).
Proof.
  intros s i g x O C H L. unfold counted, put, with_gens in *; simpl. rewrite O in *. rewrite (livesum_setg _ _ _ _ H), L. lia.
Qed.
Lemma counted_send : forall i s s', s_over s = false -> counted s -> send_close i s = Some s' -> counted s' /\ s_over s' = false.
Proof.
  intros i s s' O C E. destruct (send_close_cases _ _ _ E) as [->|[g [A [_ [_ ->]]]]]; auto. split; [|exact O]. eapply counted_put; eauto.
Qed.

Lemma live_of : forall g ph, g_phase g = ph -> live g = match ph with Gone => 0%Z | _ => 1%Z end.
Proof. intros g ph <-. reflexivity. Qed.

Lemma counted_step : forall e s, (forall i, e <> EReady i PExit) -> counted s -> counted (fst (cstep Serving e s)).
Proof.
  intros e s NX C. step_cases e s; simpl; auto.
  - destruct (nth_error (s_gens s) i) as [g|] eqn:E; simpl; auto. destruct (g_phase g) eqn:P; simpl; auto.
    pose proof (live_of _ _ P) as L. destruct p; simpl; try (eapply counted_put; eauto; fail). exfalso. eapply NX; reflexivity.
  - destruct (nth_error (s_gens s) i) as [g|] eqn:E; simpl; auto. destruct (g_phase g) eqn:P; simpl; auto.
    pose proof (live_of _ _ P) as L. destruct (g_prev g) as [j|] eqn:Pr.
    + destruct (send_close j s) as [s'|] eqn:S; simpl; auto.
      destruct (counted_send _ _ _ Ov C S) as [C' O'].
      destruct (send_close_cases _ _ _ S) as [->|[x [A [_ [_ ->]]]]]; [eapply counted_put; eauto|].
      destruct (Nat.eq_dec j i) as [->|N].
      * eapply (counted_put _ _ _ (told x)); eauto. unfold put, with_gens; simpl. eapply nth_setg_same; eauto.
        rewrite E in A. injection A as <-. rewrite live_told, L. reflexivity.
      * eapply (counted_put _ _ _ g); eauto. unfold put, with_gens; simpl. rewrite nth_setg_other; auto.
    + simpl. eapply counted_put; eauto.
  - destruct (nth_error (s_gens s) i) as [g|] eqn:E; simpl; auto. destruct (g_phase g) eqn:P; simpl; auto.
    pose proof (live_of _ _ P) as L. destruct (g_msg g || negb (has_sender i s)); simpl; auto. eapply counted_put; eauto.
  - destruct (nth_error (s_gens s) i) as [g|] eqn:E; simpl; auto. destruct (g_phase g) eqn:P; simpl; auto.
    pose proof (live_of _ _ P) as L. eapply counted_put; eauto.
  - destruct (nth_error (s_gens s) i) as [g|] eqn:E; simpl; auto. destruct (g_phase g) eqn:P; simpl; auto.
    pose proof (live_of _ _ P) as L. destruct (s_sig s) eqn:Sg; simpl; auto. unfold counted in *; simpl. rewrite Ov, Sg in C. simpl in C.
    rewrite (livesum_setg _ _ _ _ E), L, live_move. lia.
  - destruct (s_sig s) eqn:Sg, (s_taken s) eqn:T; simpl; auto. unfold counted in *; simpl. rewrite Ov, Sg, T in C. simpl in C. lia.
  - destruct (s_hold s); simpl; auto. destruct (s_taken s) eqn:T; simpl; auto.
    unfold counted in C. rewrite Ov, T in C. simpl in C. pose proof (livesum_nonneg (s_gens s)).
    destruct (Z.leb_spec (s_count s - 1) 0) as [Z|Z]; simpl; unfold counted; simpl.
    + apply livesum_zero. destruct (s_sig s); simpl in C; lia.
    + lia.
  - destruct (s_hold s); simpl; auto. destruct oc as [n|]; simpl; auto. unfold counted in *; simpl. rewrite Ov in C.
    assert (L : live (Gen Prep (s_cur s) false n) = 1%Z) by reflexivity. rewrite livesum_app. cbn [livesum]. rewrite L, Ov. lia.
  - destruct (s_hold s); simpl; auto. destruct (s_cur s) as [i|]; simpl; auto.
    destruct (send_close i s) eqn:S; simpl; [apply (counted_send _ _ _ Ov C S)|exact C].
  - destruct (s_hold s) as [i|]; simpl; auto. destruct (send_close i s) as [s'|] eqn:S; simpl; auto.
    destruct (counted_send _ _ _ Ov C S) as [C' O']. exact C'.
  - destruct (s_hold s); simpl; auto.
Qed.
Lemma counted_after : forall c evs, no_exit evs -> counted (after Serving c evs).
Proof.
  intros c evs. induction evs as [|e evs IH] using rev_ind; intro NX.
  - unfold counted; simpl. split; [reflexivity|lia].
  - rewrite after_snoc. apply counted_step.
    + intros i ->. apply (NX i). apply in_or_app. right. left. reflexivity.
    + apply IH. intros i I. apply (NX i). apply in_or_app. left. exact I.
Qed.

(* Availability. *)
Definition waiting (g : gen) : Prop := keeps (g_phase g) = true /\ g_msg g = false.
Definition upto (r : nat) (s : cst) : Prop :=
  (forall k g, nth_error (s_gens s) k = Some g -> (r <= k)%nat -> waiting g)
  /\ match r with O => True | S q => exists g, nth_error (s_gens s) q = Some g /\ g_phase g = Run /\ g_msg g = false end.
Definition quiet_mode (m : cmode) (s : cst) : Prop :=
  match m with
  | Serving => counted s
  | Disabled => length (s_gens s) = 1%nat /\ (s_sig s = true -> exists g, nth_error (s_gens s) 0 = Some g /\ g_phase g = Gone)
  | NoPort => True
  end.
Definition steady (m : cmode) (r : nat) (s : cst) : Prop := s_over s = false /\ shape s /\ s_hold s = None /\ quiet_mode m s /\ upto r s.

Lemma upto_put : forall r s i g x, upto r s -> nth_error (s_gens s) i = Some x ->
  ((r <= i)%nat -> waiting x -> waiting g) -> (r = S i -> g_phase x = Run -> g_msg x = false -> g_phase g = Run /\ g_msg g = false) -> upto r (put i g s).
Proof.
  intros r s i g x [A B] Hx W R. split.
  - intros k y Hy L. unfold put, with_gens in Hy; simpl in Hy. rewrite nth_setg in Hy. destruct (Nat.eqb_spec i k) as [<-|N].
    + rewrite Hx in Hy. injection Hy as <-. apply W; auto. eapply A; eauto.
    + eapply A; eauto.
  - destruct r as [|q]; auto. destruct B as [y [Hy [P M]]]. unfold put, with_gens; simpl. rewrite nth_setg. destruct (Nat.eqb_spec i q) as [<-|N].
    + rewrite Hx. exists g. rewrite Hx in Hy. injection Hy as <-. destruct (R eq_refl P M). auto.
    + exists y. auto.
Qed.

Lemma upto_notify : forall r s i g, shape s -> upto r s -> nth_error (s_gens s) i = Some g -> g_phase g = Note ->
  forall s', match g_prev g with Some j => send_close j s | None => Some s end = Some s' -> exists r', (r <= r')%nat /\ upto r' (put i (move Run g) s').
Proof.
  intros r s i g Sh U E P s' Hs.
  assert (Gens : (forall k y, nth_error (s_gens s') k = Some y -> (i <= k)%nat -> nth_error (s_gens s) k = Some y)
            /\ (forall k, nth_error (s_gens s') k = None <-> nth_error (s_gens s) k = None)
            /\ (forall k y, nth_error (s_gens s) k = Some y -> S k <> i -> nth_error (s_gens s') k = Some y)
            /\ nth_error (s_gens s') i = Some g).
  { destruct Sh as [_ [_ [C _]]]. rewrite (C _ _ E) in Hs. destruct i as [|j].
    - injection Hs as <-. repeat split; auto.
    - destruct (send_close_cases _ _ _ Hs) as [->|[x [A [_ [_ ->]]]]].
      + repeat split; auto.
      + unfold put, with_gens; cbn [s_gens]. split; [|split; [|split]].
        * intros k y Hy L. rewrite nth_setg_other in Hy by lia. exact Hy.
        * intro k. split; intro Q; rewrite nth_setg in *.
          -- destruct (Nat.eqb_spec j k); auto. subst. rewrite A in Q. discriminate.
          -- rewrite Q. destruct (Nat.eqb j k); reflexivity.
        * intros k y Hy L. rewrite nth_setg_other by lia. exact Hy.
        * rewrite nth_setg_other by lia. exact E. }
  destruct Gens as [G1 [G2 [G3 G4]]]. destruct U as [A B].
  destruct (Nat.le_gt_cases r i) as [L|L].
  - exists (S i). split; [lia|]. split.
    + intros k y Hy L'. unfold put, with_gens in Hy; simpl in Hy. rewrite nth_setg_other in Hy by lia.
      eapply A; [eapply G1; [exact Hy|lia]|lia].
    + exists (move Run g). unfold put, with_gens; cbn [s_gens]. split; [eapply nth_setg_same; eauto|]. split; [reflexivity|].
      simpl. destruct (A _ _ E L) as [_ M]. exact M.
  - exists r. destruct r as [|q]; [lia|]. destruct B as [y [Hy [Py My]]].
    assert (q <> i) by (intros ->; rewrite E in Hy; injection Hy as <-; congruence).
    split; [lia|]. split.
    + intros k z Hz L'. unfold put, with_gens in Hz; simpl in Hz. rewrite nth_setg_other in Hz by lia. eapply A; [eapply G1; [exact Hz|lia]|lia].
    + exists y. unfold put, with_gens; simpl. rewrite nth_setg_other by auto. split; [|auto]. apply G3; [exact Hy|lia].
Qed.

Lemma upto_sender : forall q s g, shape s -> upto (S q) s -> nth_error (s_gens s) q = Some g -> has_sender q s = true.
Proof.
  intros q s g Sh [A _] Hq. pose proof (nth_some_lt _ _ _ Hq).
  destruct (nth_error (s_gens s) (S q)) as [x|] eqn:E.
  - destruct (A _ _ E) as [K _]; [lia|]. eapply has_sender_next; eauto.
  - apply nth_error_None in E. replace q with (pred (length (s_gens s))) by lia. apply has_sender_last, Sh.
Qed.

Lemma steady_boot : forall m c, steady m 0 (boot c).
Proof.
  intros m c. split; [reflexivity|]. split; [apply shape_boot|]. split; [reflexivity|]. split.
  - destruct m; simpl; auto. unfold counted; simpl. split; [reflexivity|lia]. split; [reflexivity|discriminate].
  - split; auto. intros [|[|k]] g H L; simpl in H; try discriminate. injection H as <-. split; reflexivity.
Qed.

(* What a calm event is. *)
Definition calm_ev (e : cev) : Prop := match e with EReady _ p => p = PReady | EFail _ | EStop => False | _ => True end.

Lemma upto_ext : forall r s s', s_gens s' = s_gens s -> upto r s -> upto r s'.
Proof. intros r s s' E U. unfold upto in *. rewrite E. exact U. Qed.

Lemma upto_snoc : forall r s gs g, shape s -> upto r s -> waiting g -> s_gens gs = s_gens s ++ [g] -> upto r gs.
Proof.
  intros r s gs g Sh [A B] W E. unfold upto. rewrite E. split.
  - intros k y Hy L. destruct (nth_snoc _ _ _ _ Hy) as [H|[-> ->]]; eauto.
  - destruct r as [|q]; auto. destruct B as [y [Hy R]]. exists y. split; [|exact R]. rewrite nth_error_app1; auto. eapply nth_some_lt; eauto.
Qed.

Lemma upto_alive : forall q s, upto (S q) s -> exists g, nth_error (s_gens s) q = Some g /\ g_phase g = Run.
Proof. intros q s [_ [g [A [B _]]]]. eauto. Qed.
Lemma upto_listens : forall r s, shape s -> upto r s -> exists k g, nth_error (s_gens s) k = Some g /\ g_phase g <> Gone.
Proof.
  intros [|q] s Sh [A B].
  - destruct (nth_error (s_gens s) 0) as [g|] eqn:E.
    + exists O, g. split; auto. destruct (A _ _ E) as [K _]; [lia|]. intro Q. rewrite Q in K. discriminate.
    + exfalso. apply nth_error_None in E. destruct Sh as [L _]. lia.
  - destruct B as [g [E [P _]]]. exists q, g. split; auto. congruence.
Qed.

Lemma calm_not_exit : forall e, calm_ev e -> forall i, e <> EReady i PExit.
Proof. intros e C i ->. discriminate C. Qed.

Lemma over_only : forall m e s, s_over s = false -> quiet_mode m s -> (exists r, shape s /\ upto r s) -> calm_ev e -> s_over (fst (cstep m e s)) = false.
Proof.
  intros m e s O Q [r [Sh U]] C. destruct (upto_listens _ _ Sh U) as [k [x [Hx Px]]].
  step_cases e s; simpl; auto; try discriminate.
  - destruct (nth_error (s_gens s) i) as [g|] eqn:E; simpl; auto. destruct (g_phase g) eqn:P; simpl; auto. destruct p; simpl; auto. discriminate C.
  - destruct (nth_error (s_gens s) i) as [g|] eqn:E; simpl; auto. destruct (g_phase g) eqn:P; simpl; auto.
    destruct (g_prev g) as [j|] eqn:Pr; simpl; auto. destruct (send_close j s) as [s'|] eqn:S; simpl; auto.
    destruct (send_close_cases _ _ _ S) as [->|[y [A [_ [_ ->]]]]]; simpl; auto.
  - destruct (nth_error (s_gens s) i) as [g|] eqn:E; simpl; auto. destruct (g_phase g) eqn:P; simpl; auto.
    destruct (g_msg g || negb (has_sender i s)); simpl; auto.
  - destruct C.
  - destruct (nth_error (s_gens s) i) as [g|] eqn:E; simpl; auto. destruct (g_phase g) eqn:P; simpl; auto.
    destruct (s_sig s); simpl; auto.
  - destruct m; simpl; auto.
    + destruct (s_sig s && negb (s_taken s)); simpl; auto.
    + destruct (s_sig s) eqn:Sg; simpl; auto. exfalso. destruct Q as [L G]. destruct (G Sg) as [g [Hg Pg]].
      pose proof (nth_some_lt _ _ _ Hx). assert (k = 0)%nat by lia. subst k. congruence.
  - destruct m; simpl; auto. destruct (s_hold s); simpl; auto. destruct (s_taken s) eqn:T; simpl; auto.
    unfold quiet_mode, counted in Q. rewrite Ov, T in Q. simpl in Q. pose proof (livesum_one _ _ _ Hx Px).
    destruct (Z.leb_spec (s_count s - 1) 0) as [Z|Z]; simpl; auto. destruct (s_sig s); simpl in Q; lia.
  - destruct m; simpl; auto. destruct (s_hold s); simpl; auto. destruct oc; simpl; auto.
  - destruct C.
  - destruct (s_hold s) as [i|]; simpl; auto. destruct (send_close i s) as [s'|] eqn:S; simpl; auto.
    destruct (send_close_cases _ _ _ S) as [->|[y [A [_ [_ ->]]]]]; simpl; auto.
  - destruct m; simpl; auto. destruct (s_hold s); simpl; auto.
Qed.

Lemma hold_calm : forall m e s, calm_ev e -> s_hold s = None -> s_hold (fst (cstep m e s)) = None.
Proof.
  intros m e s C H. step_cases e s; simpl; auto.
  - destruct (nth_error (s_gens s) i) as [g|] eqn:E; simpl; auto. destruct (g_phase g) eqn:P; simpl; auto. destruct p; simpl; auto.
  - destruct (nth_error (s_gens s) i) as [g|] eqn:E; simpl; auto. destruct (g_phase g) eqn:P; simpl; auto.
    destruct (g_prev g) as [j|] eqn:Pr; simpl; auto. destruct (send_close j s) as [s'|] eqn:S; simpl; auto.
    destruct (send_close_cases _ _ _ S) as [->|[y [A [_ [_ ->]]]]]; simpl; auto.
  - destruct (nth_error (s_gens s) i) as [g|] eqn:E; simpl; auto. destruct (g_phase g) eqn:P; simpl; auto.
    destruct (g_msg g || negb (has_sender i s)); simpl; auto.
  - destruct (nth_error (s_gens s) i) as [g|] eqn:E; simpl; auto. destruct (g_phase g) eqn:P; simpl; auto.
  - destruct (nth_error (s_gens s) i) as [g|] eqn:E; simpl; auto. destruct (g_phase g) eqn:P; simpl; auto.
    destruct (s_sig s); simpl; auto.
  - destruct m; simpl; auto; destruct (s_sig s); simpl; auto. destruct (s_taken s); auto.
  - destruct m; simpl; rewrite ?H; simpl; auto. destruct (s_taken s); simpl; auto. destruct (s_count s - 1 <=? 0)%Z; simpl; auto.
  - destruct m; simpl; rewrite ?H; simpl; auto. destruct oc; simpl; auto.
  - destruct C.
  - rewrite H. exact H.
  - destruct m; simpl; rewrite ?H; simpl; auto.
Qed.

Lemma upto_step : forall m e s r, calm_ev e -> shape s -> s_hold s = None -> upto r s -> exists r', (r <= r')%nat /\ upto r' (fst (cstep m e s)).
Proof.
  intros m e s r C Sh H U. step_cases e s; simpl; eauto.
  - destruct (nth_error (s_gens s) i) as [g|] eqn:E; simpl; eauto. destruct (g_phase g) eqn:P; simpl; eauto. destruct p; try discriminate C. simpl.
    exists r. split; auto. eapply upto_put; eauto.
    + intros _ [_ W]. split; auto.
    + intros _ Q. congruence.
  - destruct (nth_error (s_gens s) i) as [g|] eqn:E; simpl; eauto. destruct (g_phase g) eqn:P; simpl; eauto.
    pose proof (upto_notify _ _ _ _ Sh U E P) as N.
    destruct (match g_prev g with Some j => send_close j s | None => Some s end) as [s'|]; simpl; eauto.
  - destruct (nth_error (s_gens s) i) as [g|] eqn:E; simpl; eauto. destruct (g_phase g) eqn:P; simpl; eauto.
    destruct (g_msg g || negb (has_sender i s)) eqn:K; simpl; eauto.
    exists r. split; auto. eapply upto_put; eauto.
    + intros L [W _]. rewrite P in W. discriminate.
    + intros -> _ M. exfalso. rewrite M, (upto_sender _ _ _ Sh U E) in K. discriminate.
  - destruct C.
  - destruct (nth_error (s_gens s) i) as [g|] eqn:E; simpl; eauto. destruct (g_phase g) eqn:P; simpl; eauto.
    destruct (s_sig s); simpl; eauto. exists r. split; auto. apply (upto_ext r (put i (move Gone g) s)); [reflexivity|]. eapply upto_put; eauto.
    + intros L [W _]. rewrite P in W. discriminate.
    + intros; congruence.
  - exists r. split; auto. eapply upto_ext; [|exact U]. destruct m; simpl; auto; destruct (s_sig s); simpl; auto. destruct (s_taken s); auto.
  - exists r. split; auto. eapply upto_ext; [|exact U]. destruct m; simpl; rewrite ?H; simpl; auto. destruct (s_taken s); simpl; auto. destruct (s_count s - 1 <=? 0)%Z; simpl; auto.
  - destruct m; simpl; rewrite ?H; simpl; eauto. destruct oc; simpl; eauto. exists r. split; auto. eapply upto_snoc; [exact Sh|exact U| |reflexivity]. split; reflexivity.
  - destruct C.
  - rewrite H. eauto.
  - exists r. split; auto. destruct m; simpl; rewrite ?H; simpl; auto.
Qed.

Lemma disabled_step : forall e s, quiet_mode Disabled s -> quiet_mode Disabled (fst (cstep Disabled e s)).
Proof.
  intros e s Q. destruct Q as [L G].
  assert (Hold : forall i g x, nth_error (s_gens s) i = Some x -> g_phase x <> Gone ->
    length (s_gens (put i g s)) = 1%nat /\ (s_sig s = true -> exists y, nth_error (s_gens (put i g s)) 0 = Some y /\ g_phase y = Gone)).
  { intros i g x Hx Px. unfold put, with_gens; simpl. rewrite setg_length. split; [exact L|]. intro Sg. destruct (G Sg) as [y [Hy Py]].
    exfalso. pose proof (nth_some_lt _ _ _ Hx). assert (i = 0)%nat by lia. subst i. congruence. }
  assert (Keep : quiet_mode Disabled s) by (split; assumption).
  step_cases e s; simpl; auto.
  - destruct (nth_error (s_gens s) i) as [g|] eqn:E; simpl; auto. destruct (g_phase g) eqn:P; simpl; auto. destruct p; simpl; try (eapply Hold; eauto; congruence). auto.
  - destruct (nth_error (s_gens s) i) as [g|] eqn:E; simpl; auto. destruct (g_phase g) eqn:P; simpl; auto.
    assert (i = 0)%nat by (pose proof (nth_some_lt _ _ _ E); lia). subst i.
    destruct (g_prev g) as [j|] eqn:Pr; [|simpl; eapply Hold; eauto; congruence].
    destruct (send_close j s) as [s'|] eqn:S; simpl; auto.
    destruct (send_close_cases _ _ _ S) as [->|[y [A [_ [_ ->]]]]]; [eapply Hold; eauto; congruence|].
    unfold put, with_gens; simpl. rewrite !setg_length. split; auto. intro Sg. destruct (G Sg) as [z [Hz Pz]]. congruence.
  - destruct (nth_error (s_gens s) i) as [g|] eqn:E; simpl; auto. destruct (g_phase g) eqn:P; simpl; auto.
    destruct (g_msg g || negb (has_sender i s)); simpl; auto. eapply Hold; eauto. congruence.
  - destruct (nth_error (s_gens s) i) as [g|] eqn:E; simpl; auto. destruct (g_phase g) eqn:P; simpl; auto. eapply Hold; eauto. congruence.
  - destruct (nth_error (s_gens s) i) as [g|] eqn:E; simpl; auto. destruct (g_phase g) eqn:P; simpl; auto.
    destruct (s_sig s) eqn:Sg; simpl; auto. rewrite setg_length. split; auto. intros _.
    assert (i = 0)%nat by (pose proof (nth_some_lt _ _ _ E); lia). subst i. exists (move Gone g). split; [exact (nth_setg_same (s_gens s) 0 (move Gone g) g E)|reflexivity].
  - destruct (s_sig s) eqn:Sg; simpl; auto.
  - destruct (s_hold s) as [i|]; simpl; auto. destruct (send_close i s) as [s'|] eqn:S; simpl; auto.
    destruct (send_close_cases _ _ _ S) as [->|[y [A [B [_ ->]]]]]; simpl; auto. eapply (Hold i (told y) y); eauto.
    intro Q. rewrite Q in B. discriminate.
Qed.

Lemma quiet_step : forall m e s, calm_ev e -> quiet_mode m s -> quiet_mode m (fst (cstep m e s)).
Proof.
  intros [| |] e s C Q; simpl; auto.
  - apply counted_step; auto. apply calm_not_exit. exact C.
  - apply disabled_step. exact Q.
Qed.

Lemma steady_step : forall m e s r, calm_ev e -> steady m r s -> exists r', (r <= r')%nat /\ steady m r' (fst (cstep m e s)).
Proof.
  intros m e s r C [O [Sh [H [Q U]]]]. destruct (upto_step m e s r C Sh H U) as [r' [L U']]. exists r'. split; auto.
  split; [apply over_only; eauto|]. split; [apply shape_step; auto|]. split; [apply hold_calm; auto|]. split; [apply quiet_step; auto|exact U'].
Qed.
Lemma calm_cons : forall e evs, calm (e :: evs) -> calm_ev e /\ calm evs.
Proof. intros e evs C. split; [apply (C e); left; reflexivity|]. intros x I. apply C. right. exact I. Qed.
Lemma steady_run : forall m evs s r, calm evs -> steady m r s -> exists r', (r <= r')%nat /\ steady m r' (fst (crun m evs s)).
Proof.
  induction evs as [|e evs IH]; intros s r C S; simpl.
  - eauto.
  - destruct (calm_cons _ _ C) as [C1 C2]. destruct (steady_step m e s r C1 S) as [r1 [L1 S1]].
    destruct (cstep m e s) as [s1 o1]. simpl in S1. destruct (IH s1 r1 C2 S1) as [r2 [L2 S2]].
    destruct (crun m evs s1) as [s2 o2]. exists r2. split; [lia|exact S2].
Qed.
Lemma steady_accepting : forall m q s, steady m (S q) s -> accepting s.
Proof.
  intros m q s [O [_ [_ [_ [_ [g [E [P _]]]]]]]]. split; auto. exists q. unfold phase_of. rewrite E. simpl. congruence.
Qed.
Lemma accepting_steady : forall m r s, steady m r s -> accepting s -> exists q, r = S q.
Proof.
  intros m [|q] s [_ [_ [_ [_ [A _]]]]] [_ [i P]]; eauto. unfold phase_of in P. destruct (nth_error (s_gens s) i) as [g|] eqn:E; [|discriminate].
  injection P as P. destruct (A _ _ E) as [K _]; [lia|]. rewrite P in K. discriminate.
Qed.
Lemma calm_app : forall a b, calm (a ++ b) -> calm a /\ calm b.
Proof. intros a b C. split; intros e I; apply C; apply in_or_app; auto. Qed.
Lemma no_gap : forall m c evs1 evs2, calm (evs1 ++ evs2) -> accepting (after m c evs1) -> accepting (after m c (evs1 ++ evs2)).
Proof.
  intros m c evs1 evs2 C A. destruct (calm_app _ _ C) as [C1 C2].
  destruct (steady_run m evs1 (boot c) 0 C1 (steady_boot m c)) as [r [_ S]].
  destruct (accepting_steady _ _ _ S A) as [q ->].
  destruct (steady_run m evs2 _ _ C2 S) as [r' [L S']].
  rewrite after_app. destruct r'; [lia|]. eapply steady_accepting; eauto.
Qed.

(* States in which nothing is left to do. *)
Lemma phase_gens_ne : forall s s' i g g', nth_error (s_gens s) i = Some g -> nth_error (s_gens s') i = Some g' -> g_phase g <> g_phase g' -> s' <> s.
Proof. intros s s' i g g' A B N ->. congruence. Qed.
Lemma put_ne : forall s i g x, nth_error (s_gens s) i = Some x -> g_phase g <> g_phase x -> put i g s <> s.
Proof. intros s i g x H N E. apply (phase_gens_ne s (put i g s) i x g H); [|congruence|exact E]. unfold put, with_gens. cbn [s_gens]. eapply nth_setg_same; eauto. Qed.

Lemma settled_no_prep : forall s, s_over s = false -> settled Serving s -> forall i g, nth_error (s_gens s) i = Some g -> g_phase g <> Prep.
Proof.
  intros s O S i g H P. specialize (S (EReady i PReady) I). unfold cstep in S. rewrite O, H, P in S. simpl in S.
  revert S. eapply put_ne; eauto. simpl. congruence.
Qed.
Lemma settled_no_sig : forall s, s_over s = false -> s_hold s = None -> settled Serving s -> s_sig s = false /\ s_taken s = false.
Proof.
  intros s O Hh S. pose proof (S ETake I) as A. pose proof (S EDec I) as B. unfold cstep in A, B. rewrite O in A, B. rewrite Hh in B.
  assert (T : s_taken s = false).
  { destruct (s_taken s) eqn:T; auto. exfalso. destruct (s_count _ <=? 0)%Z; apply (f_equal s_taken) in B; simpl in B; congruence. }
  split; auto. rewrite T in A. simpl in A. destruct (s_sig s) eqn:Sg; auto. simpl in A. apply (f_equal s_sig) in A. simpl in A. congruence.
Qed.
Lemma settled_no_run_msg : forall s, s_over s = false -> settled Serving s -> forall i g, nth_error (s_gens s) i = Some g -> g_phase g = Run -> g_msg g || negb (has_sender i s) = false.
Proof.
  intros s O S i g H P. destruct (g_msg g || negb (has_sender i s)) eqn:K; auto. exfalso. specialize (S (EClose i) I). unfold cstep in S. rewrite O, H, P, K in S. simpl in S.
  revert S. eapply put_ne; eauto. simpl. congruence.
Qed.
Lemma send_close_none : forall i s, send_close i s = None -> exists g, nth_error (s_gens s) i = Some g /\ listens (g_phase g) = true /\ g_msg g = true.
Proof.
  unfold send_close. intros i s H. destruct (nth_error (s_gens s) i) as [g|]; [|discriminate]. exists g.
  destruct (listens (g_phase g)); simpl in H; [|discriminate]. destruct (g_msg g); [auto|discriminate].
Qed.
Lemma settled_no_note : forall s, s_over s = false -> shape s -> settled Serving s -> forall i g, nth_error (s_gens s) i = Some g -> g_phase g <> Note.
Proof.
  intros s O Sh S. induction i as [|i IH]; intros g H P.
  - pose proof (S (ENotify 0) I) as A. unfold cstep in A. rewrite O, H, P in A. destruct Sh as [_ [_ [C _]]]. rewrite (C _ _ H) in A. simpl in A.
    revert A. eapply put_ne; eauto. simpl. congruence.
  - pose proof (S (ENotify (Datatypes.S i)) I) as A. unfold cstep in A. rewrite O, H, P in A. assert (Sh' := Sh). destruct Sh as [_ [_ [C _]]]. rewrite (C _ _ H) in A.
    destruct (send_close i s) as [s'|] eqn:E.
    + simpl in A. assert (nth_error (s_gens s') (Datatypes.S i) = Some g).
      { destruct (send_close_cases _ _ _ E) as [->|[y [Q [_ [_ ->]]]]]; auto. unfold put, with_gens; cbn [s_gens]. rewrite nth_setg_other by lia. exact H. }
      apply (f_equal (fun t => option_map g_phase (nth_error (s_gens t) (Datatypes.S i)))) in A. unfold put, with_gens in A. cbn [s_gens] in A.
      rewrite (nth_setg_same _ _ _ _ H0), H in A. simpl in A. congruence.
    + destruct (send_close_none _ _ E) as [y [Hy [Ly My]]].
      destruct (g_phase y) eqn:Py; try discriminate Ly.
      * eapply settled_no_prep; eauto.
      * eapply IH; eauto.
      * pose proof (settled_no_run_msg s O S i y Hy Py) as K. rewrite My in K. discriminate.
Qed.
Lemma settled_no_hold : forall s, s_over s = false -> shape s -> settled Serving s -> s_hold s = None.
Proof.
  intros s O Sh S. destruct (s_hold s) as [i|] eqn:Hh; auto. exfalso.
  pose proof (S EStopGo I) as A. unfold cstep in A. rewrite O, Hh in A. destruct (send_close i s) as [s'|] eqn:E.
  - simpl in A. apply (f_equal s_hold) in A. simpl in A. congruence.
  - destruct (send_close_none _ _ E) as [y [Hy [Ly My]]].
    destruct (g_phase y) eqn:Py; try discriminate Ly.
    + eapply settled_no_prep; eauto.
    + eapply settled_no_note; eauto.
    + pose proof (settled_no_run_msg s O S i y Hy Py) as K. rewrite My in K. discriminate.
Qed.
Lemma settled_form : forall s, s_over s = false -> shape s -> settled Serving s ->
  s_hold s = None /\ s_sig s = false /\ s_taken s = false /\
  forall i g, nth_error (s_gens s) i = Some g -> g_phase g = Gone \/ g_phase g = Lost \/ (i = newest s /\ g_phase g = Run /\ g_msg g = false).
Proof.
  intros s O Sh S. pose proof (settled_no_hold s O Sh S) as Hh. destruct (settled_no_sig s O Hh S) as [Sg T].
  split; [exact Hh|]. split; [exact Sg|]. split; [exact T|]. intros i g H. destruct (g_phase g) eqn:P; auto.
  - exfalso. eapply settled_no_prep; eauto.
  - exfalso. eapply settled_no_note; eauto.
  - right. right. pose proof (settled_no_run_msg s O S i g H P) as K. apply orb_false_iff in K. destruct K as [M K]. apply negb_false_iff in K.
    destruct (has_sender_inv _ _ Sh K) as [->|[x [Hx Kx]]]; auto.
    exfalso. destruct (g_phase x) eqn:Px; try discriminate Kx; [eapply settled_no_prep|eapply settled_no_note]; eauto.
  - exfalso. specialize (S (ESend i) I). unfold cstep in S. rewrite O, H, P, Sg in S. simpl in S. apply (f_equal s_sig) in S. simpl in S. congruence.
Qed.

(* Who is lost has panicked. *)
Definition lost_ok (evs : list cev) (s : cst) : Prop := forall i g, nth_error (s_gens s) i = Some g -> g_phase g = Lost -> In (EReady i PPanic) evs.
Lemma lost_put : forall evs s i g, lost_ok evs s -> (g_phase g = Lost -> In (EReady i PPanic) evs) -> lost_ok evs (put i g s).
Proof.
  intros evs s i g H G k y Hy P. unfold put, with_gens in Hy; cbn [s_gens] in Hy. rewrite nth_setg in Hy. destruct (Nat.eqb_spec i k) as [<-|N].
  - destruct (nth_error (s_gens s) i); [|discriminate]. injection Hy as <-. auto.
  - eapply H; eauto.
Qed.
Lemma lost_ext : forall evs s s', s_gens s' = s_gens s -> lost_ok evs s -> lost_ok evs s'.
Proof. intros evs s s' E H i g. rewrite E. apply H. Qed.
Lemma lost_send : forall evs i s s', lost_ok evs s -> send_close i s = Some s' -> lost_ok evs s'.
Proof.
  intros evs i s s' H E. destruct (send_close_cases _ _ _ E) as [->|[y [A [_ [_ ->]]]]]; auto. apply lost_put; auto. simpl. intro P. eapply H; eauto.
Qed.
Lemma lost_step : forall m e s evs, lost_ok evs s -> lost_ok (evs ++ [e]) (fst (cstep m e s)).
Proof.
  intros m e s evs H.
  assert (K : lost_ok (evs ++ [e]) s) by (intros i g A B; apply in_or_app; left; eapply H; eauto).
  step_cases e s; simpl; auto.
  - destruct (nth_error (s_gens s) i) as [g|] eqn:E; simpl; auto. destruct (g_phase g) eqn:P; simpl; auto.
    destruct p; simpl; try (apply lost_put; auto; simpl; congruence); [|exact K]. apply lost_put; auto. intros _. apply in_or_app. right. left. reflexivity.
  - destruct (nth_error (s_gens s) i) as [g|] eqn:E; simpl; auto. destruct (g_phase g) eqn:P; simpl; auto.
    destruct (g_prev g) as [j|] eqn:Pr; simpl; [|apply lost_put; auto; simpl; congruence].
    destruct (send_close j s) as [s'|] eqn:S; simpl; auto. apply lost_put; [eapply lost_send; eauto|simpl; congruence].
  - destruct (nth_error (s_gens s) i) as [g|] eqn:E; simpl; auto. destruct (g_phase g) eqn:P; simpl; auto.
    destruct (g_msg g || negb (has_sender i s)); simpl; auto. apply lost_put; auto; simpl; congruence.
  - destruct (nth_error (s_gens s) i) as [g|] eqn:E; simpl; auto. destruct (g_phase g) eqn:P; simpl; auto. apply lost_put; auto; simpl; congruence.
  - destruct (nth_error (s_gens s) i) as [g|] eqn:E; simpl; auto. destruct (g_phase g) eqn:P; simpl; auto.
    destruct (s_sig s); simpl; auto. apply (lost_ext _ (put i (move Gone g) s)); [reflexivity|]. apply lost_put; auto; simpl; congruence.
  - eapply lost_ext; [|exact K]. destruct m; simpl; auto; destruct (s_sig s); simpl; auto. destruct (s_taken s); auto.
  - eapply lost_ext; [|exact K]. destruct m; simpl; auto. destruct (s_hold s); simpl; auto. destruct (s_taken s); simpl; auto. destruct (s_count s - 1 <=? 0)%Z; simpl; auto.
  - destruct m; simpl; auto. destruct (s_hold s); simpl; auto. destruct oc as [n|]; simpl; auto.
    intros i g A B. simpl in A. destruct (nth_snoc _ _ _ _ A) as [Q|[_ ->]]; [eapply K; eauto|discriminate B].
  - destruct m; simpl; auto. destruct (s_hold s); simpl; auto. destruct (s_cur s) as [i|]; simpl; auto.
    destruct (send_close i s) eqn:S; simpl; [eapply lost_send; eauto|]. exact K.
  - destruct (s_hold s) as [i|]; simpl; auto. destruct (send_close i s) as [s'|] eqn:S; simpl; auto.
    apply (lost_ext _ s'); [reflexivity|]. eapply lost_send; eauto.
  - destruct m; simpl; auto. destruct (s_hold s); simpl; auto.
Qed.
Lemma lost_after : forall m c evs, lost_ok evs (after m c evs).
Proof.
  intros m c evs. induction evs as [|e evs IH] using rev_ind.
  - intros [|[|i]] g H; simpl in H; try discriminate. injection H as <-. discriminate.
  - rewrite after_snoc. apply lost_step. exact IH.
Qed.

(* Handing over ends with the newest generation alone. *)
Lemma calm_no_exit : forall evs, calm evs -> no_exit evs.
Proof. intros evs C i I. discriminate (C _ I). Qed.
Lemma calm_no_panic : forall evs, calm evs -> no_panic evs.
Proof. intros evs C i I. discriminate (C _ I). Qed.
Lemma handover : forall c evs, calm evs -> settled Serving (after Serving c evs) ->
  s_over (after Serving c evs) = false /\ forall i, (i < generations (after Serving c evs))%nat ->
    phase_of i (after Serving c evs) = Some (if Nat.eqb i (newest (after Serving c evs)) then Run else Gone).
Proof.
  intros c evs C S. set (s := after Serving c evs) in *.
  destruct (steady_run Serving evs (boot c) 0 C (steady_boot Serving c)) as [r [_ [O [Sh [_ [Q U]]]]]].
  fold (after Serving c evs) in O, Sh, Q, U. fold s in O, Sh, Q, U. split; auto. intros i L.
  destruct (settled_form s O Sh S) as [Hh [Sg [T F]]].
  assert (NL : forall k g, nth_error (s_gens s) k = Some g -> g_phase g <> Lost).
  { intros k g H P. apply (calm_no_panic _ C k). eapply (lost_after Serving c evs); eauto. }
  unfold phase_of. destruct (nth_error (s_gens s) i) as [g|] eqn:E; [|apply nth_error_None in E; unfold generations in L; lia]. simpl. f_equal.
  destruct (Nat.eqb_spec i (newest s)) as [->|N].
  - destruct (F _ _ E) as [P|[P|[_ [P _]]]]; auto; exfalso; [|eapply NL; eauto].
    unfold quiet_mode, counted in Q. rewrite O, Sg, T in Q. simpl in Q.
    destruct r as [|q].
    + destruct U as [A _]. destruct (A _ _ E) as [K _]; [lia|]. rewrite P in K. discriminate.
    + destruct (Nat.le_gt_cases (Datatypes.S q) (newest s)) as [L'|L'].
      * destruct U as [A _]. destruct (A _ _ E L') as [K _]. rewrite P in K. discriminate.
      * destruct U as [_ [y [Hy [Py _]]]]. destruct (F _ _ Hy) as [P'|[P'|[-> _]]]; congruence.
  - destruct (F _ _ E) as [P|[P|[P _]]]; auto; exfalso; [eapply NL; eauto|contradiction].
Qed.

(* Ending. *)
Definition closing (g : gen) : Prop := g_msg g = true \/ g_phase g = Leave \/ g_phase g = Gone.
Definition finishing (g : gen) : Prop := g_phase g = Lost \/ closing g.

Lemma ending_put : forall s i g x, ending s -> nth_error (s_gens s) i = Some x -> (closing x -> closing g) -> ending (put i g s).
Proof.
  intros s i g x [H|[y [A B]]] Hx C; unfold ending, newest, generations, put, with_gens in *; cbn [s_gens s_hold] in *; rewrite setg_length.
  - left. exact H.
  - right. rewrite nth_setg. destruct (Nat.eqb_spec i (pred (length (s_gens s)))) as [->|N]; eauto.
    rewrite A. exists g. split; auto. apply C. rewrite A in Hx. injection Hx as <-. exact B.
Qed.
Lemma ending_send : forall i s s', ending s -> send_close i s = Some s' -> ending s'.
Proof.
  intros i s s' H E. destruct (send_close_cases _ _ _ E) as [->|[y [A [_ [_ ->]]]]]; auto. eapply ending_put; eauto. intros _. left. reflexivity.
Qed.
Lemma ending_ext : forall s s', s_gens s' = s_gens s -> s_hold s' = s_hold s -> ending s -> ending s'.
Proof. intros s s' A B H. unfold ending, newest, generations in *. rewrite A, B. exact H. Qed.
Lemma send_close_told : forall i s s' g, send_close i s = Some s' -> nth_error (s_gens s) i = Some g -> g_phase g <> Lost -> exists g', nth_error (s_gens s') i = Some g' /\ closing g'.
Proof.
  unfold send_close. intros i s s' g E H NL. rewrite H in E. destruct (listens (g_phase g)) eqn:L; simpl in E.
  - destruct (g_msg g) eqn:M; [discriminate|]. injection E as <-. exists (told g). unfold put, with_gens; cbn [s_gens]. split; [eapply nth_setg_same; eauto|]. left. reflexivity.
  - injection E as <-. exists g. split; auto. unfold closing. destruct (g_phase g); try discriminate; auto.
Qed.
Lemma send_close_keeps : forall i s s' k g, send_close i s = Some s' -> nth_error (s_gens s) k = Some g -> closing g -> exists g', nth_error (s_gens s') k = Some g' /\ closing g'.
Proof.
  intros i s s' k g E H C. destruct (send_close_cases _ _ _ E) as [->|[y [A [_ [_ ->]]]]]; eauto.
  unfold put, with_gens; cbn [s_gens]. rewrite nth_setg. destruct (Nat.eqb_spec i k) as [->|N]; eauto. rewrite H. exists (told y). split; auto. left. reflexivity.
Qed.
Definition unlost (s : cst) : Prop := forall i g, nth_error (s_gens s) i = Some g -> g_phase g <> Lost.
Lemma ending_step : forall m e s, internal e -> unlost s -> shape s -> ending s -> ending (fst (cstep m e s)).
Proof.
  intros m e s C U Sh H. step_cases e s; simpl; auto; try (destruct C; fail).
  - destruct (nth_error (s_gens s) i) as [g|] eqn:E; simpl; auto. destruct (g_phase g) eqn:P; simpl; auto.
    assert (Q : forall ph, closing g -> closing (move ph g)).
    { intros ph [M|[M|M]]; try congruence. left. exact M. }
    destruct p; simpl; try (eapply ending_put; eauto; fail); exact H.
  - destruct (nth_error (s_gens s) i) as [g|] eqn:E; simpl; auto. destruct (g_phase g) eqn:P; simpl; auto.
    assert (Q : forall ph, closing g -> closing (move ph g)).
    { intros ph [M|[M|M]]; try congruence. left. exact M. }
    destruct (g_prev g) as [j|] eqn:Pr; simpl; [|eapply ending_put; eauto].
    destruct (send_close j s) as [s'|] eqn:S; simpl; auto. assert (H' := ending_send _ _ _ H S).
    destruct (send_close_cases _ _ _ S) as [->|[y [A [_ [_ ->]]]]]; [eapply ending_put; eauto|].
    destruct Sh as [_ [_ [B _]]]. pose proof (B _ _ E) as B'. assert (j <> i) by (rewrite Pr in B'; destruct i; [discriminate|]; injection B'; lia).
    eapply (ending_put _ _ _ g); eauto. unfold put, with_gens; cbn [s_gens]. rewrite nth_setg_other; auto.
  - destruct (nth_error (s_gens s) i) as [g|] eqn:E; simpl; auto. destruct (g_phase g) eqn:P; simpl; auto.
    destruct (g_msg g || negb (has_sender i s)); simpl; auto. eapply ending_put; eauto. intros _. right. left. reflexivity.
  - destruct (nth_error (s_gens s) i) as [g|] eqn:E; simpl; auto. destruct (g_phase g) eqn:P; simpl; auto. eapply ending_put; eauto. intros _. right. left. reflexivity.
  - destruct (nth_error (s_gens s) i) as [g|] eqn:E; simpl; auto. destruct (g_phase g) eqn:P; simpl; auto.
    destruct (s_sig s); simpl; auto. apply (ending_ext (put i (move Gone g) s)); auto. eapply ending_put; eauto. intros _. right. right. reflexivity.
  - eapply ending_ext; [| |exact H]; destruct m; simpl; auto; destruct (s_sig s); simpl; auto; destruct (s_taken s); auto.
  - eapply ending_ext; [| |exact H]; destruct m; simpl; auto; destruct (s_hold s) eqn:Hh; simpl; auto; destruct (s_taken s); simpl; auto; destruct (s_count s - 1 <=? 0)%Z; simpl; auto.
  - destruct (s_hold s) as [i|] eqn:Hh; simpl; auto. destruct (send_close i s) as [s'|] eqn:S; simpl; auto.
    assert (L : length (s_gens s') = length (s_gens s)).
    { destruct (send_close_cases _ _ _ S) as [->|[y [A [_ [_ ->]]]]]; auto. unfold put, with_gens; cbn [s_gens]. apply setg_length. }
    right. unfold newest, generations. cbn [with_hold s_gens]. rewrite L. destruct H as [H|H].
    + rewrite Hh in H. injection H as ->. fold (generations s). fold (newest s).
      destruct (nth_error (s_gens s) (newest s)) as [g|] eqn:E.
      * eapply send_close_told; eauto.
      * exfalso. apply nth_error_None in E. destruct Sh as [Q _]. unfold newest, generations in E. lia.
    + destruct H as [g [G1 G2]]. eapply send_close_keeps; eauto.
Qed.

Lemma unlost_internal : forall m c evs evs2, no_panic evs -> (forall e, In e evs2 -> internal e) -> unlost (after m c (evs ++ evs2)).
Proof.
  intros m c evs evs2 NP IN i g H P. pose proof (lost_after m c _ _ _ H P) as Q. apply in_app_or in Q. destruct Q as [Q|Q].
  - eapply NP; eauto.
  - exact (IN _ Q).
Qed.
Lemma ending_run : forall m c evs evs2, no_panic evs -> (forall e, In e evs2 -> internal e) -> ending (after m c evs) -> ending (after m c (evs ++ evs2)).
Proof.
  intros m c evs evs2 NP. induction evs2 as [|e evs2 IH] using rev_ind; intros IN H.
  - rewrite app_nil_r. exact H.
  - rewrite app_assoc, after_snoc. assert (IN' : forall x, In x evs2 -> internal x) by (intros x I; apply IN, in_or_app; auto).
    apply ending_step; [apply IN, in_or_app; right; left; reflexivity|apply unlost_internal; auto|apply shape_after|auto].
Qed.

Lemma classic_exit : forall e, (exists i, e = EReady i PExit) \/ (forall i, e <> EReady i PExit).
Proof. intros [i []|i|i|i|i| | |oc| | | | ]; try (right; intros k Q; discriminate Q). left. eauto. Qed.
Lemma counted_run : forall c evs s, s = after Serving c evs -> counted s \/ exists i, In (EReady i PExit) evs /\ s_over s = true.
Proof.
  intros c evs. induction evs as [|e evs IH] using rev_ind; intros s ->.
  - left. unfold counted; simpl. split; [reflexivity|lia].
  - rewrite after_snoc. destruct (IH _ eq_refl) as [C|[i [I O]]].
    + destruct (s_over (after Serving c evs)) eqn:O.
      * left. unfold cstep. rewrite O. exact C.
      * destruct (classic_exit e) as [[i ->]|N].
        -- destruct (nth_error (s_gens (after Serving c evs)) i) as [g|] eqn:E.
           ++ destruct (g_phase g) eqn:P; try (left; unfold cstep; rewrite O, E, P; exact C).
              right. exists i. split; [apply in_or_app; right; left; reflexivity|]. unfold cstep. rewrite O, E, P. reflexivity.
           ++ left. unfold cstep. rewrite O, E. exact C.
        -- left. apply counted_step; auto.
    + right. exists i. split; [apply in_or_app; auto|]. unfold cstep. rewrite O. exact O.
Qed.

Lemma ending_settled : forall c evs evs2, no_panic evs -> (forall e, In e evs2 -> internal e) -> ending (after Serving c evs) ->
  settled Serving (after Serving c (evs ++ evs2)) -> s_over (after Serving c (evs ++ evs2)) = true.
Proof.
  intros c evs evs2 NP IN H S. set (s := after Serving c (evs ++ evs2)) in *.
  destruct (s_over s) eqn:O; auto. exfalso.
  assert (E : ending s) by (apply ending_run; auto). assert (U : unlost s) by (apply unlost_internal; auto). assert (Sh : shape s) by apply shape_after.
  destruct (settled_form s O Sh S) as [Hh [Sg [T F]]].
  destruct (counted_run c (evs ++ evs2) s eq_refl) as [C|[i [_ Q]]]; [|congruence].
  unfold counted in C. rewrite O, Sg, T in C. simpl in C.
  assert (G : forall l, (forall i g, nth_error l i = Some g -> g_phase g = Gone) -> livesum l = 0%Z).
  { induction l as [|x l IH]; intro A; simpl; auto. rewrite IH; [|intros i g Q; apply (A (Datatypes.S i)); exact Q]. rewrite (live_of x Gone); auto. apply (A 0%nat). reflexivity. }
  rewrite G in C; [lia|]. intros i g Hg. destruct (F _ _ Hg) as [P|[P|[-> [P M]]]]; auto; exfalso; [eapply U; eauto|].
  destruct E as [E|[y [Hy B]]]; [congruence|]. rewrite Hy in Hg. injection Hg as ->. destruct B as [B|[B|B]]; congruence.
Qed.

(* A bound on what happens by itself. *)
Definition weight (g : gen) : nat := match g_phase g with Prep => 6 | Note => 5 | Run => 4 | Leave => 3 | _ => 0 end.
Definition b2n (b : bool) : nat := if b then 1%nat else 0%nat.
Fixpoint weights (l : list gen) : nat := match l with [] => 0%nat | g :: l' => (weight g + weights l')%nat end.
Definition todo (s : cst) : nat :=
  if s_over s then 0%nat else (weights (s_gens s) + 2 * b2n (s_sig s) + b2n (s_taken s) + match s_hold s with Some _ => 1 | None => 0 end + 1)%nat.
Lemma weights_setg : forall l i g x, nth_error l i = Some x -> (weights (setg l i g) + weight x = weights l + weight g)%nat.
Proof.
  induction l; intros [|i] g x H; simpl in *; try discriminate.
  - injection H as ->. lia.
  - specialize (IHl _ g _ H). lia.
Qed.
Lemma weights_send : forall i s s', send_close i s = Some s' -> weights (s_gens s') = weights (s_gens s) /\ s_over s' = s_over s /\ s_sig s' = s_sig s /\ s_taken s' = s_taken s /\ s_hold s' = s_hold s.
Proof.
  intros i s s' E. destruct (send_close_cases _ _ _ E) as [->|[y [A [_ [_ ->]]]]]; auto. unfold put, with_gens; simpl. repeat split.
  pose proof (weights_setg _ _ (told y) _ A). change (weight (told y)) with (weight y) in H. lia.
Qed.
Lemma weight_of : forall g ph, g_phase g = ph -> weight g = match ph with Prep => 6 | Note => 5 | Run => 4 | Leave => 3 | _ => 0 end%nat.
Proof. intros g ph <-. reflexivity. Qed.
Lemma todo_step : forall e s, internal e -> shape s -> fst (cstep Serving e s) <> s -> (todo (fst (cstep Serving e s)) < todo s)%nat.
Proof.
  intros e s C Sh. 
  assert (Put : forall i g x, s_over s = false -> nth_error (s_gens s) i = Some x -> (weight g < weight x)%nat -> (todo (put i g s) < todo s)%nat).
  { intros i g x O H W. unfold todo, put, with_gens; simpl. rewrite O. pose proof (weights_setg _ _ g _ H). lia. }
  step_cases e s; simpl; try (intro; congruence); try (destruct C; fail).
  - destruct (nth_error (s_gens s) i) as [g|] eqn:E; simpl; [|congruence]. destruct (g_phase g) eqn:P; simpl; try congruence.
    pose proof (weight_of _ _ P). intros _. destruct p; simpl; try (eapply Put; eauto; rewrite H; simpl; unfold weight; simpl; lia).
    unfold todo. simpl. rewrite Ov. lia.
  - destruct (nth_error (s_gens s) i) as [g|] eqn:E; simpl; [|congruence]. destruct (g_phase g) eqn:P; simpl; try congruence.
    pose proof (weight_of _ _ P). 
    destruct (g_prev g) as [j|] eqn:Pr; simpl; [|intros _; eapply Put; eauto; rewrite H; unfold weight; simpl; lia].
    destruct (send_close j s) as [s'|] eqn:S; simpl; [|congruence]. intros _. destruct (weights_send _ _ _ S) as [W [O' [A1 [A2 A3]]]].
    assert (G : nth_error (s_gens s') i = Some g).
    { destruct (send_close_cases _ _ _ S) as [->|[y [A [_ [_ ->]]]]]; auto. unfold put, with_gens; cbn [s_gens]. destruct Sh as [_ [_ [B _]]]. pose proof (B _ _ E) as B'.
      rewrite nth_setg_other; auto. rewrite Pr in B'; destruct i; [discriminate|]; injection B'; lia. }
    unfold todo, put, with_gens; simpl. rewrite O', A1, A2, A3, Ov. pose proof (weights_setg _ _ (move Run g) _ G). rewrite H in H0. unfold weight in H0 at 1. simpl in H0. unfold weight in H0. simpl in H0. lia.
  - destruct (nth_error (s_gens s) i) as [g|] eqn:E; simpl; [|congruence]. destruct (g_phase g) eqn:P; simpl; try congruence.
    pose proof (weight_of _ _ P). destruct (g_msg g || negb (has_sender i s)); simpl; [|congruence]. intros _. eapply Put; eauto; rewrite H; unfold weight; simpl; lia.
  - destruct (nth_error (s_gens s) i) as [g|] eqn:E; simpl; [|congruence]. destruct (g_phase g) eqn:P; simpl; try congruence.
    pose proof (weight_of _ _ P). intros _. eapply Put; eauto; rewrite H; unfold weight; simpl; lia.
  - destruct (nth_error (s_gens s) i) as [g|] eqn:E; simpl; [|congruence]. destruct (g_phase g) eqn:P; simpl; try congruence.
    pose proof (weight_of _ _ P). destruct (s_sig s) eqn:Sg; simpl; [congruence|]. intros _. unfold todo; simpl. rewrite Ov, Sg.
    pose proof (weights_setg _ _ (move Gone g) _ E). rewrite H in H0. change (weight (move Gone g)) with 0%nat in H0. simpl. lia.
  - destruct (s_sig s) eqn:Sg, (s_taken s) eqn:T; simpl; try congruence. intros _. unfold todo; simpl. rewrite Ov, Sg, T. simpl. lia.
  - destruct (s_hold s) eqn:Hh; simpl; try congruence. destruct (s_taken s) eqn:T; simpl; try congruence. intros _. unfold todo. rewrite Ov, T, Hh.
    destruct (s_count s - 1 <=? 0)%Z; simpl; try lia.
  - destruct (s_hold s) as [i|] eqn:Hh; simpl; try congruence. destruct (send_close i s) as [s'|] eqn:S; simpl; try congruence. intros _.
    destruct (weights_send _ _ _ S) as [W [O' [A1 [A2 A3]]]]. unfold todo; simpl. rewrite W, O', A1, A2, Ov, Hh. lia.
Qed.
Lemma todo_bound : forall evs s, (forall e, In e evs -> internal e) -> shape s -> busy Serving evs s -> (length evs <= todo s)%nat.
Proof.
  induction evs as [|e evs IH]; intros s IN Sh B; simpl; [lia|]. destruct B as [B1 B2].
  pose proof (todo_step e s (IN e (or_introl eq_refl)) Sh B1). specialize (IH _ (fun x I => IN x (or_intror I)) (shape_step _ _ _ Sh) B2). lia.
Qed.
Lemma weights_le : forall l, (weights l <= 6 * length l)%nat.
Proof. induction l as [|g l IH]; simpl; [lia|]. unfold weight. destruct (g_phase g); lia. Qed.
Lemma todo_le : forall s, (todo s <= 6 * generations s + 5)%nat.
Proof.
  intro s. unfold todo, generations. pose proof (weights_le (s_gens s)). destruct (s_over s); [lia|]. destruct (s_sig s), (s_taken s), (s_hold s); simpl; lia.
Qed.

(* Why a generation goes down. *)
Definition cause (m : cmode) (c : N) (evs : list cev) (s : cst) (o : list cout) : Prop :=
  (forall i g, nth_error (s_gens s) i = Some g -> g_msg g = true -> In (OUp (S i)) o \/ stop_asked m c evs i)
  /\ (forall i, s_hold s = Some i -> stop_asked m c evs i)
  /\ (forall i g, nth_error (s_gens s) (S i) = Some g -> keeps (g_phase g) = false -> In (OUp (S i)) o \/ start_failed evs (S i)).
Lemma stop_asked_mono : forall m c evs e i, stop_asked m c evs i -> stop_asked m c (evs ++ [e]) i.
Proof. intros m c evs e i [e1 [e2 [-> L]]]. exists e1, (e2 ++ [e]). split; auto. rewrite <- app_assoc. reflexivity. Qed.
Lemma start_failed_mono : forall evs e i, start_failed evs i -> start_failed (evs ++ [e]) i.
Proof. intros evs e i [p [N I]]. exists p. split; auto. apply in_or_app; auto. Qed.
Lemma cause_mono : forall m c evs s o e o', cause m c evs s o -> cause m c (evs ++ [e]) s (o ++ o').
Proof.
  intros m c evs s o e o' [A [B C]]. split; [|split].
  - intros i g H M. destruct (A _ _ H M); [left; apply in_or_app; auto|right; apply stop_asked_mono; auto].
  - intros i H. apply stop_asked_mono, B, H.
  - intros i g H M. destruct (C _ _ H M); [left; apply in_or_app; auto|right; apply start_failed_mono; auto].
Qed.
Lemma cause_ext : forall m c evs s s' o, s_gens s' = s_gens s -> s_hold s' = s_hold s -> cause m c evs s o -> cause m c evs s' o.
Proof. intros m c evs s s' o A B H. unfold cause in *. rewrite A, B. exact H. Qed.
Lemma cause_put : forall m c evs s o i g x, cause m c evs s o -> nth_error (s_gens s) i = Some x ->
  (g_msg g = true -> g_msg x = true \/ In (OUp (S i)) o \/ stop_asked m c evs i) ->
  (forall k, i = S k -> keeps (g_phase g) = false -> keeps (g_phase x) = false \/ In (OUp i) o \/ start_failed evs i) -> cause m c evs (put i g s) o.
Proof.
  intros m c evs s o i g x [A [B C]] Hx M K. split; [|split].
  - intros k y Hy My. unfold put, with_gens in Hy; cbn [s_gens] in Hy. rewrite nth_setg in Hy. destruct (Nat.eqb_spec i k) as [<-|N]; eauto.
    rewrite Hx in Hy. injection Hy as <-. destruct (M My) as [Q|Q]; eauto.
  - exact B.
  - intros k y Hy Ky. unfold put, with_gens in Hy; cbn [s_gens] in Hy. rewrite nth_setg in Hy. destruct (Nat.eqb_spec i (S k)) as [->|N]; eauto.
    rewrite Hx in Hy. injection Hy as <-. destruct (K _ eq_refl Ky) as [Q|Q]; eauto.
Qed.
Lemma cause_send : forall m c evs s o i s', cause m c evs s o -> send_close i s = Some s' -> In (OUp (S i)) o \/ stop_asked m c evs i -> cause m c evs s' o.
Proof.
  intros m c evs s o i s' H E D. destruct (send_close_cases _ _ _ E) as [->|[y [A [_ [_ ->]]]]]; auto. eapply cause_put; eauto.
Qed.
Lemma cause_step : forall m c evs e, let s := after m c evs in let o := outs m c evs in
  shape s -> cause m c evs s o -> cause m c (evs ++ [e]) (fst (cstep m e s)) (o ++ snd (cstep m e s)).
Proof.
  intros m c evs e s o Sh H0.
  assert (H : forall o', cause m c (evs ++ [e]) s (o ++ o')) by (intro o'; apply cause_mono; exact H0).
  assert (K : forall l, cause m c (evs ++ [e]) (fst (s, l : list cout)) (o ++ snd (s, l))) by (intro l; apply H).
  step_cases e s; auto.
  - destruct (nth_error (s_gens s) i) as [g|] eqn:E; auto. destruct (g_phase g) eqn:P; auto.
    destruct p; simpl; try (eapply cause_put; eauto; simpl; intros; auto; try discriminate; right; right;
      match goal with |- start_failed (_ ++ [EReady _ ?p]) _ => exists p; split; [discriminate|apply in_or_app; right; left; reflexivity] end).
    apply H.
  - destruct (nth_error (s_gens s) i) as [g|] eqn:E; auto. destruct (g_phase g) eqn:P; auto.
    assert (Up : forall k, i = S k -> keeps (g_phase (move Run g)) = false -> keeps (g_phase g) = false \/ In (OUp i) (o ++ [OUp i]) \/ start_failed (evs ++ [ENotify i]) i).
    { intros. right. left. apply in_or_app. right. left. reflexivity. }
    destruct (g_prev g) as [j|] eqn:Pr; simpl; [|eapply cause_put; eauto].
    destruct (send_close j s) as [s'|] eqn:S; simpl; auto.
    assert (j <> i /\ i = Datatypes.S j) as [N J]. { destruct Sh as [_ [_ [B _]]]. pose proof (B _ _ E) as B'. rewrite Pr in B'. destruct i; [discriminate|]. injection B'. lia. }
    assert (G : nth_error (s_gens s') i = Some g).
    { destruct (send_close_cases _ _ _ S) as [->|[y [A [_ [_ ->]]]]]; auto. unfold put, with_gens; cbn [s_gens]. rewrite nth_setg_other; auto. }
    eapply (cause_put _ _ _ s' _ _ _ g); eauto.
    eapply cause_send; [apply H|exact S|]. left. rewrite <- J. apply in_or_app. right. left. reflexivity.
  - destruct (nth_error (s_gens s) i) as [g|] eqn:E; auto. destruct (g_phase g) eqn:P; auto.
    destruct (g_msg g || negb (has_sender i s)); auto. simpl. eapply cause_put; eauto. intros. left. rewrite P. reflexivity.
  - destruct (nth_error (s_gens s) i) as [g|] eqn:E; auto. destruct (g_phase g) eqn:P; auto. simpl. eapply cause_put; eauto. intros. left. rewrite P. reflexivity.
  - destruct (nth_error (s_gens s) i) as [g|] eqn:E; auto. destruct (g_phase g) eqn:P; auto.
    destruct (s_sig s); auto. simpl. eapply (cause_ext _ _ _ (put i (move Gone g) s)); auto. eapply cause_put; eauto. intros. left. rewrite P. reflexivity.
  - eapply cause_ext; [| |apply H]; destruct m; simpl; auto; destruct (s_sig s); simpl; auto; destruct (s_taken s); auto.
  - eapply cause_ext; [| |apply H]; destruct m; simpl; auto; destruct (s_hold s) eqn:Hh; simpl; auto; destruct (s_taken s); simpl; auto; destruct (s_count s - 1 <=? 0)%Z; simpl; auto.
  - destruct m; auto. destruct (s_hold s) eqn:Hh; auto. destruct oc as [n|]; auto. unfold start. simpl.
    destruct (H [OStart (length (s_gens s)) n; OReloaded]) as [A [B C]]. split; [|split]; cbn [s_gens s_hold].
    + intros i g Q M. destruct (nth_snoc _ _ _ _ Q) as [Q'|[_ ->]]; [eauto|discriminate M].
    + intros i Q. rewrite Hh in Q. discriminate.
    + intros i g Q M. destruct (nth_snoc _ _ _ _ Q) as [Q'|[_ ->]]; [eauto|discriminate M].
  - destruct m; auto. destruct (s_hold s) eqn:Hh; auto. destruct (s_cur s) as [i|] eqn:Cu; auto.
    assert (SA : stop_asked Serving c (evs ++ [EStop]) i).
    { exists evs, []. split; auto. fold s. destruct Sh as [L [Cu' _]]. rewrite Cu in Cu'. injection Cu' as ->. unfold generations. lia. }
    destruct (send_close i s) eqn:S; simpl.
    + eapply cause_send; [apply H|exact S|]. right. exact SA.
    + destruct (H []) as [A [B C]]. split; [exact A|split; [|exact C]]. simpl. intros k Q. injection Q as <-. exact SA.
  - destruct (s_hold s) as [i|] eqn:Hh; auto. destruct (send_close i s) as [s'|] eqn:S; simpl; auto.
    destruct (H [OStopped]) as [A [B C]]. assert (Q : cause m c (evs ++ [EStopGo]) s' (o ++ [OStopped])) by (eapply cause_send; eauto; right; apply B, Hh).
    destruct Q as [A' [B' C']]. split; [exact A'|split; [|exact C']]. simpl. discriminate.
  - destruct m; auto. destruct (s_hold s); auto.
Qed.
Lemma cause_after : forall m c evs, cause m c evs (after m c evs) (outs m c evs).
Proof.
  intros m c evs. induction evs as [|e evs IH] using rev_ind.
  - split; [|split].
    + intros [|[|i]] g H M; simpl in H; try discriminate. injection H as <-. discriminate M.
    + discriminate.
    + intros i g H M. destruct i; discriminate H.
  - rewrite after_snoc, outs_snoc. apply cause_step; [apply shape_after|exact IH].
Qed.
Lemma why_down : forall m c evs e k, In (ODown k) (snd (cstep m e (after m c evs))) ->
  In (OUp (S k)) (outs m c evs) \/ start_failed evs (S k) \/ stop_asked m c evs k \/ e = EFail k.
Proof.
  intros m c evs e k D. set (s := after m c evs) in *. assert (Sh : shape s) by apply shape_after.
  destruct (cause_after m c evs) as [A [B C]]. fold s in A, B, C.
  revert D. step_cases e s; simpl; try tauto.
  - destruct (nth_error (s_gens s) i) as [g|] eqn:E; simpl; try tauto. destruct (g_phase g) eqn:P; simpl; try tauto. destruct p; simpl; try tauto. intros [Q|[]]; discriminate Q.
  - destruct (nth_error (s_gens s) i) as [g|] eqn:E; simpl; try tauto. destruct (g_phase g) eqn:P; simpl; try tauto.
    destruct (match g_prev g with Some j => send_close j s | None => Some s end); simpl; try tauto. intros [Q|[]]; discriminate Q.
  - destruct (nth_error (s_gens s) i) as [g|] eqn:E; simpl; try tauto. destruct (g_phase g) eqn:P; simpl; try tauto.
    destruct (g_msg g || negb (has_sender i s)) eqn:K; simpl; try tauto. intros [Q|[]]. injection Q as ->.
    apply orb_true_iff in K. destruct K as [K|K].
    + destruct (A _ _ E K); auto.
    + destruct (nth_error (s_gens s) (S k)) as [x|] eqn:X.
      * destruct (keeps (g_phase x)) eqn:Kx; [rewrite (has_sender_next _ _ _ Sh X Kx) in K; discriminate|]. destruct (C _ _ X Kx); auto.
      * apply nth_error_None in X. pose proof (nth_some_lt _ _ _ E). replace k with (pred (length (s_gens s))) in K by lia. rewrite has_sender_last in K; [discriminate|exact Sh].
  - destruct (nth_error (s_gens s) i) as [g|] eqn:E; simpl; try tauto. destruct (g_phase g) eqn:P; simpl; try tauto.
    intros [Q|[]]. injection Q as ->. auto.
  - destruct (nth_error (s_gens s) i) as [g|] eqn:E; simpl; try tauto. destruct (g_phase g) eqn:P; simpl; try tauto. destruct (s_sig s); simpl; tauto.
  - destruct m; simpl; try tauto; destruct (s_sig s); simpl; try tauto.
    + destruct (s_taken s); simpl; tauto.
    + intros [Q|[]]; discriminate Q.
  - destruct m; simpl; try tauto; destruct (s_hold s); simpl; try tauto. destruct (s_taken s); simpl; try tauto. destruct (s_count s - 1 <=? 0)%Z; simpl; try tauto. intros [Q|[]]; discriminate Q.
  - destruct m; simpl; try tauto; destruct (s_hold s); simpl; try tauto. destruct oc; simpl; intros [Q|Q]; try discriminate Q; try tauto. destruct Q as [Q|[]]; discriminate Q.
  - destruct m; simpl; try tauto; destruct (s_hold s); simpl; try tauto. destruct (s_cur s) as [j|]; simpl; [|intros [Q|[]]; discriminate Q].
    destruct (send_close j s); simpl; try tauto. intros [Q|[]]; discriminate Q.
  - destruct (s_hold s) as [j|]; simpl; try tauto. destruct (send_close j s); simpl; try tauto. intros [Q|[]]; discriminate Q.
  - destruct m; simpl; try tauto; destruct (s_hold s); simpl; try tauto. intros [Q|[]]; discriminate Q.
Qed.

(* A lost generation stays lost. *)
Lemma lost_stays : forall m e s i g, nth_error (s_gens s) i = Some g -> g_phase g = Lost -> exists g', nth_error (s_gens (fst (cstep m e s))) i = Some g' /\ g_phase g' = Lost.
Proof.
  intros m e s k x H P.
  assert (Put : forall i g y, nth_error (s_gens s) i = Some y -> g_phase y <> Lost -> exists g', nth_error (s_gens (put i g s)) k = Some g' /\ g_phase g' = Lost).
  { intros i g y Hy Py. exists x. unfold put, with_gens; cbn [s_gens]. rewrite nth_setg_other; auto. intros ->. congruence. }
  assert (Snd : forall i s', send_close i s = Some s' -> exists g', nth_error (s_gens s') k = Some g' /\ g_phase g' = Lost).
  { intros i s' E. destruct (send_close_cases _ _ _ E) as [->|[y [A [B [_ ->]]]]]; eauto. eapply Put; eauto. intro Q. rewrite Q in B. discriminate. }
  step_cases e s; simpl; eauto.
  - destruct (nth_error (s_gens s) i) as [g|] eqn:E; simpl; eauto. destruct (g_phase g) eqn:Q; simpl; eauto. destruct p; simpl; try (eapply Put; eauto; congruence). eauto.
  - destruct (nth_error (s_gens s) i) as [g|] eqn:E; simpl; eauto. destruct (g_phase g) eqn:Q; simpl; eauto.
    destruct (g_prev g) as [j|] eqn:Pr; simpl; [|eapply Put; eauto; congruence]. destruct (send_close j s) as [s'|] eqn:S; simpl; eauto.
    destruct (Snd _ _ S) as [g' [A B]]. exists g'. rewrite nth_setg_other; auto. intros ->. congruence.
  - destruct (nth_error (s_gens s) i) as [g|] eqn:E; simpl; eauto. destruct (g_phase g) eqn:Q; simpl; eauto. destruct (g_msg g || negb (has_sender i s)); simpl; eauto. eapply Put; eauto; congruence.
  - destruct (nth_error (s_gens s) i) as [g|] eqn:E; simpl; eauto. destruct (g_phase g) eqn:Q; simpl; eauto. eapply Put; eauto; congruence.
  - destruct (nth_error (s_gens s) i) as [g|] eqn:E; simpl; eauto. destruct (g_phase g) eqn:Q; simpl; eauto. destruct (s_sig s); simpl; eauto. eapply (Put i); eauto; congruence.
  - destruct m; simpl; eauto; destruct (s_sig s); simpl; eauto. destruct (s_taken s); simpl; eauto.
  - destruct m; simpl; eauto; destruct (s_hold s); simpl; eauto. destruct (s_taken s); simpl; eauto. destruct (s_count s - 1 <=? 0)%Z; simpl; eauto.
  - destruct m; simpl; eauto; destruct (s_hold s); simpl; eauto. destruct oc; simpl; eauto. exists x. rewrite nth_error_app1; auto. eapply nth_some_lt; eauto.
  - destruct m; simpl; eauto; destruct (s_hold s); simpl; eauto. destruct (s_cur s) as [j|]; simpl; eauto. destruct (send_close j s) eqn:S; simpl; eauto.
  - destruct (s_hold s) as [j|]; simpl; eauto. destruct (send_close j s) eqn:S; simpl; eauto.
  - destruct m; simpl; eauto; destruct (s_hold s); simpl; eauto.
Qed.
Lemma lost_run : forall m evs s i, phase_of i s = Some Lost -> phase_of i (fst (crun m evs s)) = Some Lost.
Proof.
  induction evs as [|e evs IH]; intros s i P; simpl; auto. unfold phase_of in P. destruct (nth_error (s_gens s) i) as [g|] eqn:E; [|discriminate]. injection P as P.
  destruct (lost_stays m e s i g E P) as [g' [A B]]. destruct (cstep m e s) as [s1 o1]. simpl in A.
  assert (Q : phase_of i s1 = Some Lost) by (unfold phase_of; rewrite A; simpl; congruence). specialize (IH s1 i Q). destruct (crun m evs s1). exact IH.
Qed.

(* The configuration shown. *)
Lemma opt_step : forall m e s, s_opt (fst (cstep m e s)) = s_opt s.
Proof.
  assert (Snd : forall i s s', send_close i s = Some s' -> s_opt s' = s_opt s).
  { intros i s s' E. destruct (send_close_cases _ _ _ E) as [->|[y [A [B [_ ->]]]]]; reflexivity. }
  intros m e s. step_cases e s; simpl; auto.
  - destruct (nth_error (s_gens s) i) as [g|] eqn:E; simpl; auto. destruct (g_phase g) eqn:Q; simpl; auto. destruct p; simpl; auto.
  - destruct (nth_error (s_gens s) i) as [g|] eqn:E; simpl; auto. destruct (g_phase g) eqn:Q; simpl; auto.
    destruct (g_prev g) as [j|]; simpl; auto. destruct (send_close j s) as [s'|] eqn:S; simpl; auto. eapply Snd; eauto.
  - destruct (nth_error (s_gens s) i) as [g|] eqn:E; simpl; auto. destruct (g_phase g) eqn:Q; simpl; auto. destruct (g_msg g || negb (has_sender i s)); simpl; auto.
  - destruct (nth_error (s_gens s) i) as [g|] eqn:E; simpl; auto. destruct (g_phase g) eqn:Q; simpl; auto.
  - destruct (nth_error (s_gens s) i) as [g|] eqn:E; simpl; auto. destruct (g_phase g) eqn:Q; simpl; auto. destruct (s_sig s); simpl; auto.
  - destruct m; simpl; auto; destruct (s_sig s); simpl; auto. destruct (s_taken s); simpl; auto.
  - destruct m; simpl; auto; destruct (s_hold s); simpl; auto. destruct (s_taken s); simpl; auto. destruct (s_count s - 1 <=? 0)%Z; simpl; auto.
  - destruct m; simpl; auto; destruct (s_hold s); simpl; auto. destruct oc; simpl; auto.
  - destruct m; simpl; auto; destruct (s_hold s); simpl; auto. destruct (s_cur s) as [j|]; simpl; auto. destruct (send_close j s) eqn:S; simpl; eauto.
  - destruct (s_hold s) as [j|]; simpl; auto. destruct (send_close j s) eqn:S; simpl; auto. eapply Snd; eauto.
  - destruct m; simpl; auto; destruct (s_hold s); simpl; auto.
Qed.
Lemma opt_after : forall m c evs, s_opt (after m c evs) = c.
Proof. intros m c evs. induction evs as [|e evs IH] using rev_ind; [reflexivity|]. rewrite after_snoc, opt_step. exact IH. Qed.

Lemma noport_step : forall e s, (forall i, e <> EReady i PExit) -> s_over s = false -> s_over (fst (cstep NoPort e s)) = false.
Proof.
  assert (Snd : forall i s s', send_close i s = Some s' -> s_over s' = s_over s).
  { intros i s s' E. destruct (send_close_cases _ _ _ E) as [->|[y [A [B [_ ->]]]]]; reflexivity. }
  intros e s NX O. step_cases e s; simpl; auto.
  - discriminate.
  - destruct (nth_error (s_gens s) i) as [g|] eqn:E; simpl; auto. destruct (g_phase g) eqn:Q; simpl; auto. destruct p; simpl; auto. exfalso; eapply NX; reflexivity.
  - destruct (nth_error (s_gens s) i) as [g|] eqn:E; simpl; auto. destruct (g_phase g) eqn:Q; simpl; auto.
    destruct (g_prev g) as [j|]; simpl; auto. destruct (send_close j s) as [s'|] eqn:S; simpl; auto. rewrite (Snd _ _ _ S). exact Ov.
  - destruct (nth_error (s_gens s) i) as [g|] eqn:E; simpl; auto. destruct (g_phase g) eqn:Q; simpl; auto. destruct (g_msg g || negb (has_sender i s)); simpl; auto.
  - destruct (nth_error (s_gens s) i) as [g|] eqn:E; simpl; auto. destruct (g_phase g) eqn:Q; simpl; auto.
  - destruct (nth_error (s_gens s) i) as [g|] eqn:E; simpl; auto. destruct (g_phase g) eqn:Q; simpl; auto. destruct (s_sig s); simpl; auto.
  - destruct (s_hold s) as [j|]; simpl; auto. destruct (send_close j s) eqn:S; simpl; auto. rewrite (Snd _ _ _ S). exact Ov.
Qed.
Lemma noport_after : forall c evs, no_exit evs -> s_over (after NoPort c evs) = false.
Proof.
  intros c evs. induction evs as [|e evs IH] using rev_ind; intro NX; [reflexivity|]. rewrite after_snoc. apply noport_step.
  - intros i ->. apply (NX i). apply in_or_app. right. left. reflexivity.
  - apply IH. intros i I. apply (NX i). apply in_or_app. left. exact I.
Qed.
