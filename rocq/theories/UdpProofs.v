(* Invariants of UDP forwarding. *)
From Coq Require Import Wf_nat.
From Verif Require Import Base UdpModel UdpSpec.
Open Scope N_scope.

Lemma upd_length {A} (l : list A) i x : length (upd l i x) = length l.
Proof. revert i; induction l as [|y l IH]; intros [|i]; cbn; auto. Qed.
Lemma upd_eq {A} (l : list A) i x y : nth_error l i = Some y -> nth_error (upd l i x) i = Some x.
Proof. revert i; induction l as [|z l IH]; intros [|i]; cbn; try discriminate; auto. Qed.
Lemma upd_ne {A} (l : list A) i j x : i <> j -> nth_error (upd l i x) j = nth_error l j.
Proof. revert i j; induction l as [|z l IH]; intros [|i] [|j] N; cbn; auto; try congruence. Qed.
Lemma app_assoc4 {A} (a b c d : list A) : a ++ b ++ c ++ d = (a ++ b) ++ c ++ d. Proof. now rewrite app_assoc. Qed.

Lemma to_app a b : to_clients (a ++ b) = to_clients a ++ to_clients b. Proof. apply flat_map_app. Qed.
Lemma for_app a b : for_clients (a ++ b) = for_clients a ++ for_clients b. Proof. apply flat_map_app. Qed.
Lemma came_app a d x y : came a d (x ++ y) = (came a d x + came a d y)%nat.
Proof. induction x as [|o x IH]; cbn [app came]; [reflexivity|]. destruct o; rewrite IH; lia. Qed.
Lemma up_app a d x y : went_up a d (x ++ y) = (went_up a d x + went_up a d y)%nat.
Proof. induction x as [|o x IH]; cbn [app went_up]; [reflexivity|]. destruct o; rewrite IH; lia. Qed.

(* ---- sending to clients ---- *)
Lemma write_out_spec flags : forall q o r ok, write_out flags q = (o, r, ok) ->
  to_clients o ++ r = q /\ for_clients o = [] /\ (forall a d, came a d o = 0%nat /\ went_up a d o = 0%nat) /\ (forall x, In x o -> exists d a, x = OClient d a \/ x = OLost d a).
Proof.
  induction flags as [|f flags IH]; intros q o r ok H.
  - destruct q as [|(d, a) q]; cbn in H; injection H as <- <- <-; repeat split; auto; intros x [].
  - destruct q as [|(d, a) q]; cbn [write_out] in H; [injection H as <- <- <-; repeat split; auto; intros x []|].
    destruct f.
    + destruct (write_out flags q) as [[o' r'] ok'] eqn:E. injection H as <- <- <-. destruct (IH _ _ _ _ E) as (A & B & C & D).
      split; [cbn; now f_equal|]. split; [exact B|]. split; [exact C|]. intros x [<-|I]; [eauto|apply D; exact I].
    + injection H as <- <- <-. repeat split; auto. intros x [<-|[]]. eauto.
Qed.
Lemma write_out_all q : forall flags, (length q <= length flags)%nat -> forallb (fun b => b) flags = true -> write_out flags q = (map (fun x => OClient (fst x) (snd x)) q, [], true).
Proof.
  induction q as [|(d, a) q IH]; intros [|f flags] L F; cbn in *; try reflexivity; try lia.
  apply andb_true_iff in F. destruct F as (-> & F). rewrite IH by (auto; lia). reflexivity.
Qed.

(* ---- counting what is held for a client ---- *)
Fixpoint cnt (a : uaddr) (d : bytes) (q : list item) : nat := match q with [] => 0 | (d', a') :: q' => hit a d a' d' + cnt a d q' end.
Fixpoint cntb (a : uaddr) (d : bytes) (o : uaddr) (l : list bytes) : nat := match l with [] => 0 | d' :: l' => hit a d o d' + cntb a d o l' end.
Definition tcount (a : uaddr) (d : bytes) (t : utask) : nat := (cntb a d (t_origin t) (t_chan t) + cntb a d (t_origin t) (t_sendq t))%nat.
Fixpoint tsum (a : uaddr) (d : bytes) (ts : list utask) : nat := match ts with [] => 0 | t :: ts' => tcount a d t + tsum a d ts' end.
Definition held (a : uaddr) (d : bytes) (st : ust) : nat := (cnt a d (u_sendc st) + tsum a d (u_tasks st))%nat.
Lemma cnt_app a d x y : cnt a d (x ++ y) = (cnt a d x + cnt a d y)%nat.
Proof. induction x as [|(d', a') x IH]; cbn [app cnt]; [reflexivity|]. rewrite IH. lia. Qed.
Lemma cntb_app a d o x y : cntb a d o (x ++ y) = (cntb a d o x + cntb a d o y)%nat.
Proof. induction x as [|d' x IH]; cbn [app cntb]; [reflexivity|]. rewrite IH. lia. Qed.
Lemma tsum_app a d x y : tsum a d (x ++ y) = (tsum a d x + tsum a d y)%nat.
Proof. induction x as [|t x IH]; cbn [app tsum]; [reflexivity|]. rewrite IH. lia. Qed.
Lemma tsum_upd a d ts i t t' : nth_error ts i = Some t -> (tsum a d (upd ts i t') + tcount a d t = tsum a d ts + tcount a d t')%nat.
Proof. revert i; induction ts as [|u ts IH]; intros [|i] H; cbn in *; try discriminate; [injection H as ->; lia|]. specialize (IH i H). lia. Qed.

(* the tables of sessions and tasks fit *)
Definition wf (se : list (uaddr * usess)) (ts : list utask) : Prop :=
  forall a s, lookup N.eqb a se = Some s -> exists t, nth_error ts (us_task s) = Some t /\ t_origin t = a.
(* same sessions, further on: origins and remotes do not change *)
Definition same (ts ts' : list utask) : Prop :=
  length ts = length ts' /\ forall i t, nth_error ts i = Some t -> exists t', nth_error ts' i = Some t' /\ t_origin t' = t_origin t /\ t_remote t' = t_remote t.
Lemma same_refl ts : same ts ts. Proof. split; eauto. Qed.
Lemma same_trans a b c : same a b -> same b c -> same a c.
Proof.
  intros (L1 & H1) (L2 & H2). split; [congruence|]. intros i t H. destruct (H1 i t H) as (t' & E & F & G). destruct (H2 i t' E) as (t'' & E' & F' & G').
  exists t''. repeat split; congruence.
Qed.
Lemma same_upd ts i t t' : nth_error ts i = Some t -> t_origin t' = t_origin t -> t_remote t' = t_remote t -> same ts (upd ts i t').
Proof.
  intros H O R. split; [now rewrite upd_length|]. intros j u Hj. destruct (Nat.eq_dec i j) as [<-|Ne].
  - exists t'. rewrite (upd_eq _ _ _ _ H). assert (t = u) by congruence. subst u. auto.
  - exists u. rewrite upd_ne by exact Ne. auto.
Qed.
Lemma wf_same se ts ts' : wf se ts -> same ts ts' -> wf se ts'.
Proof. intros W (L & H) a s E. destruct (W a s E) as (t & F & G). destruct (H _ _ F) as (t' & F' & G' & _). exists t'. split; [exact F'|congruence]. Qed.

Lemma hand_out_spec q : forall flags se ts q' ts', wf se ts -> hand_out flags q se ts = (q', ts') ->
  same ts ts' /\ forall a d, (cnt a d q' + tsum a d ts' <= cnt a d q + tsum a d ts)%nat.
Proof.
  induction q as [|(d0, a0) q IH]; intros flags se ts q' ts' W H; cbn [hand_out] in H.
  - injection H as <- <-. split; [apply same_refl|]. intros; cbn; lia.
  - destruct (lookup N.eqb a0 se) as [s|] eqn:L.
    2:{ destruct (IH _ _ _ _ _ W H) as (A & B). split; [exact A|]. intros a d. specialize (B a d). cbn [cnt]. lia. }
    destruct (W _ _ L) as (t & E & O). rewrite E in H. destruct (t_life t).
    2,3: destruct (IH _ _ _ _ _ W H) as (A & B); split; [exact A|]; intros a d; specialize (B a d); cbn [cnt]; lia.
    destruct (hd false flags && (length (t_chan t) <? chan_cap)%nat).
    + set (t2 := UTask (t_origin t) (t_remote t) (t_chan t ++ [d0]) (t_sendq t) Running) in H.
      assert (S1 : same ts (upd ts (us_task s) t2)) by (eapply same_upd; [exact E|reflexivity|reflexivity]).
      destruct (IH _ _ _ _ _ (wf_same _ _ _ W S1) H) as (A & B). split; [eapply same_trans; eassumption|]. intros a d. specialize (B a d).
      assert (T := tsum_upd a d ts (us_task s) t t2 E).
      assert (TC : tcount a d t2 = (tcount a d t + hit a d a0 d0)%nat) by (unfold tcount, t2; cbn [t_origin t_chan t_sendq]; rewrite cntb_app; cbn [cntb]; rewrite O; lia).
      cbn [cnt]. lia.
    + destruct (hand_out (tl flags) q se ts) as (r, ts2) eqn:Hh. injection H as <- <-. destruct (IH _ _ _ _ _ W Hh) as (A & B). split; [exact A|]. intros a d. specialize (B a d). cbn [cnt]. lia.
Qed.

(* ---- the invariant ---- *)
Definition is_open (tr : list uout) (i : nat) (a r : uaddr) : Prop := In (OOpen i a r) tr.
Record inv (st : ust) (tr : list uout) : Prop := Inv {
  inv_wf : wf (u_sess st) (u_tasks st);
  inv_items : to_clients tr ++ u_cache st ++ u_recv st = for_clients tr;
  inv_count : forall a d, (went_up a d tr + held a d st <= came a d tr)%nat;
  inv_open : forall i a r, is_open tr i a r <-> exists t, nth_error (u_tasks st) i = Some t /\ t_origin t = a /\ t_remote t = r;
  inv_use : forall o, In o tr -> match o with OUp i a _ r => is_open tr i a r | OReply i a _ _ | OEnd i a => exists r, is_open tr i a r | _ => True end
}.
Lemma open_app tr o i a r : is_open tr i a r -> is_open (tr ++ o) i a r. Proof. unfold is_open. rewrite in_app_iff. auto. Qed.
Lemma use_app tr o : (forall x, In x tr -> match x with OUp i a _ r => is_open tr i a r | OReply i a _ _ | OEnd i a => exists r, is_open tr i a r | _ => True end) ->
  (forall x, In x o -> match x with OUp i a _ r => is_open (tr ++ o) i a r | OReply i a _ _ | OEnd i a => exists r, is_open (tr ++ o) i a r | _ => True end) ->
  forall x, In x (tr ++ o) -> match x with OUp i a _ r => is_open (tr ++ o) i a r | OReply i a _ _ | OEnd i a => exists r, is_open (tr ++ o) i a r | _ => True end.
Proof.
  intros A B x I. apply in_app_iff in I. destruct I as [I|I]; [|apply B; exact I]. specialize (A x I). destruct x; auto.
  - apply open_app. exact A.
  - destruct A as (r & A). exists r. apply open_app. exact A.
  - destruct A as (r & A). exists r. apply open_app. exact A.
Qed.
(* steps that open nothing and keep the tasks *)
Lemma open_same tr o ts ts' : (forall i a r, is_open tr i a r <-> exists t, nth_error ts i = Some t /\ t_origin t = a /\ t_remote t = r) -> same ts ts' ->
  (forall i a r, ~ In (OOpen i a r) o) -> forall i a r, is_open (tr ++ o) i a r <-> exists t, nth_error ts' i = Some t /\ t_origin t = a /\ t_remote t = r.
Proof.
  intros H (L & S) N i a r. unfold is_open. rewrite in_app_iff. split.
  - intros [I|I]; [|destruct (N _ _ _ I)]. apply H in I. destruct I as (t & E & F & G). destruct (S _ _ E) as (t' & E' & F' & G'). exists t'. repeat split; congruence.
  - intros (t' & E & F & G). left. apply H. assert (Q : (i < length ts)%nat) by (rewrite L; apply nth_error_Some; congruence). apply nth_error_Some in Q.
    destruct (nth_error ts i) as [t|] eqn:E0; [|congruence]. destruct (S _ _ E0) as (t2 & E2 & F2 & G2). exists t. assert (t2 = t') by congruence. subst t2. repeat split; congruence.
Qed.

Section Steps.
  Context (tmo : N).
  Lemma process_inv now up d a st tr : inv st tr -> let (st', o) := process_data tmo now up d a st in inv st' (tr ++ OIn a d :: o).
  Proof.
    intros [W IT CT OP US].
    (* keeping the datagram for the session *)
    assert (KEEP : forall s, lookup N.eqb a (u_sess st) = Some s ->
      inv (USt (u_recv st) (u_cache st) (u_sendc st ++ [(d, a)]) (insert N.eqb a (USess (us_task s) now) (u_sess st)) (u_tasks st)) (tr ++ [OIn a d])).
    { intros s L. constructor; cbn [u_sess u_tasks u_cache u_recv u_sendc].
      - intros b s' E. destruct (N.eq_dec b a) as [->|Ne].
        + rewrite lookup_insert_eq in E by apply N.eqb_eq. injection E as <-. cbn [us_task]. apply W. exact L.
        + rewrite lookup_insert_ne in E by (apply N.eqb_eq || exact Ne). apply W. exact E.
      - rewrite to_app, for_app. cbn [to_clients for_clients flat_map]. rewrite !app_nil_r. exact IT.
      - intros b e. rewrite up_app, came_app. unfold held. cbn [u_sendc u_tasks]. rewrite cnt_app. cbn [cnt went_up came]. specialize (CT b e). unfold held in CT. lia.
      - apply (open_same tr [OIn a d] _ _ OP (same_refl _)). intros i b r [I|[]]. discriminate.
      - apply use_app; [exact US|]. intros x [<-|[]]. exact I. }
    (* dropping it *)
    assert (DROP : forall se, wf se (u_tasks st) -> inv (USt (u_recv st) (u_cache st) (u_sendc st) se (u_tasks st)) (tr ++ [OIn a d])).
    { intros se Wse. constructor; cbn [u_sess u_tasks u_cache u_recv u_sendc].
      - exact Wse.
      - rewrite to_app, for_app. cbn [to_clients for_clients flat_map]. rewrite !app_nil_r. exact IT.
      - intros b e. rewrite up_app, came_app. cbn [went_up came]. specialize (CT b e). unfold held in *. cbn [set_task push_recv u_sendc u_tasks]. lia.
      - apply (open_same tr [OIn a d] _ _ OP (same_refl _)). intros i b r [I|[]]. discriminate.
      - apply use_app; [exact US|]. intros x [<-|[]]. exact I. }
    (* opening a session *)
    assert (OPEN : forall se r, wf se (u_tasks st) ->
      inv (USt (u_recv st) (u_cache st) (u_sendc st) (insert N.eqb a (USess (length (u_tasks st)) now) se) (u_tasks st ++ [UTask a r [] [d] Running])) (tr ++ [OIn a d; OOpen (length (u_tasks st)) a r])).
    { intros se r Wse. constructor; cbn [u_sess u_tasks u_cache u_recv u_sendc].
      - intros b s' E. destruct (N.eq_dec b a) as [->|Ne].
        + rewrite lookup_insert_eq in E by apply N.eqb_eq. injection E as <-. cbn [us_task]. eexists. rewrite nth_error_app2, Nat.sub_diag by lia. split; reflexivity.
        + rewrite lookup_insert_ne in E by (apply N.eqb_eq || exact Ne). destruct (Wse _ _ E) as (t & F & G). exists t. split; [|exact G]. rewrite nth_error_app1; [exact F|]. apply nth_error_Some. congruence.
      - rewrite to_app, for_app. cbn [to_clients for_clients flat_map]. rewrite !app_nil_r. exact IT.
      - intros b e. rewrite up_app, came_app. unfold held. cbn [u_sendc u_tasks]. rewrite tsum_app. cbn [went_up came tsum]. unfold tcount. cbn [t_origin t_chan t_sendq cntb]. specialize (CT b e). unfold held in CT. lia.
      - intros i b r'. unfold is_open. rewrite in_app_iff. split.
        + intros [I|[I|[I|[]]]].
          * apply OP in I. destruct I as (t & E & F & G). exists t. split; [|auto]. rewrite nth_error_app1; [exact E|]. apply nth_error_Some. congruence.
          * discriminate.
          * injection I as <- <- <-. eexists. rewrite nth_error_app2, Nat.sub_diag by lia. split; [reflexivity|]. auto.
        + intros (t & E & F & G). destruct (Nat.lt_ge_cases i (length (u_tasks st))) as [Lt|Ge].
          * rewrite nth_error_app1 in E by exact Lt. left. apply OP. eauto.
          * rewrite nth_error_app2 in E by exact Ge. destruct (i - length (u_tasks st))%nat as [|k] eqn:K; cbn in E; [|destruct k; discriminate]. injection E as <-. cbn in F, G. subst. right. right. left. f_equal. lia.
      - apply use_app; [exact US|]. intros x [<-|[<-|[]]]; exact I. }
    unfold process_data. destruct (lookup N.eqb a (u_sess st)) as [s|] eqn:L.
    - destruct (now - us_last s <=? tmo); [apply KEEP; reflexivity|].
      assert (WR : wf (remove N.eqb a (u_sess st)) (u_tasks st)).
      { intros b s' E. destruct (N.eq_dec b a) as [->|Ne]; [rewrite lookup_remove_eq in E by apply N.eqb_eq; discriminate|]. rewrite lookup_remove_ne in E by (apply N.eqb_eq || exact Ne). apply W. exact E. }
      destruct up as [r|]; [apply OPEN; exact WR|apply DROP; exact WR].
    - destruct up as [r|]; [apply OPEN; exact W|]. specialize (DROP _ W). destruct st; exact DROP.
  Qed.
  Lemma poll_inv wr rs rd cap now up st tr : inv st tr -> let (st', o) := udp_poll tmo wr rs rd cap now up st in inv st' (tr ++ o).
  Proof.
    intros [W IT CT OP US]. unfold udp_poll. destruct (write_out wr (u_cache st ++ u_recv st)) as [[o cache] ok] eqn:WO.
    destruct (write_out_spec _ _ _ _ _ WO) as (A & B & C & D).
    assert (IT' : to_clients (tr ++ o) ++ cache = for_clients (tr ++ o)). { rewrite to_app, for_app, B, app_nil_r, <- app_assoc, A. exact IT. }
    assert (NO : forall i a r, ~ In (OOpen i a r) o). { intros i a r I. destruct (D _ I) as (d & a' & [X|X]); discriminate. }
    assert (NU : forall x, In x (tr ++ o) -> match x with OUp i a _ r => is_open (tr ++ o) i a r | OReply i a _ _ | OEnd i a => exists r, is_open (tr ++ o) i a r | _ => True end).
    { apply use_app; [exact US|]. intros x I. destruct (D _ I) as (d & a & [-> | ->]); exact Logic.I. }
    destruct ok.
    - destruct (hand_out rs (u_sendc st) (u_sess st) (u_tasks st)) as (sendc, ts) eqn:HO. destruct (hand_out_spec _ _ _ _ _ _ W HO) as (SM & CN).
      assert (I1 : inv (USt [] cache sendc (u_sess st) ts) (tr ++ o)).
      { constructor; cbn [u_sess u_tasks u_cache u_recv u_sendc].
        - eapply wf_same; eassumption.
        - rewrite app_nil_r. exact IT'.
        - intros a d. rewrite up_app, came_app. destruct (C a d) as (-> & ->). specialize (CT a d). specialize (CN a d). unfold held in *. cbn [set_task push_recv u_sendc u_tasks]. lia.
        - apply (open_same tr o _ _ OP SM NO).
        - exact NU. }
      destruct rd as [(a, d)|]; [|exact I1]. assert (P := process_inv now up (firstn cap d) a _ _ I1). destruct (process_data tmo now up (firstn cap d) a _) as (st', o'). now rewrite <- app_assoc in P.
    - constructor; cbn [u_sess u_tasks u_cache u_recv u_sendc].
      + exact W.
      + rewrite app_nil_r. exact IT'.
      + intros a d. rewrite up_app, came_app. destruct (C a d) as (-> & ->). specialize (CT a d). unfold held in *. cbn [set_task push_recv u_sendc u_tasks]. lia.
      + apply (open_same tr o _ _ OP (same_refl _) NO).
      + exact NU.
  Qed.
  Lemma inv_nil st tr : inv st tr -> inv st (tr ++ []). Proof. now rewrite app_nil_r. Qed.
  Lemma same_set st i t t' : nth_error (u_tasks st) i = Some t -> t_origin t' = t_origin t -> t_remote t' = t_remote t -> same (u_tasks st) (u_tasks (set_task i t' st)).
  Proof. intros. unfold set_task. cbn [u_tasks]. eapply same_upd; eassumption. Qed.
  (* a task step that only changes what it holds *)
  Lemma task_inv st tr i t t' o : inv st tr -> nth_error (u_tasks st) i = Some t -> t_origin t' = t_origin t -> t_remote t' = t_remote t ->
    to_clients o = [] -> for_clients o = [] -> (forall j a r, ~ In (OOpen j a r) o) ->
    (forall x, In x o -> exists d, x = OUp i (t_origin t) d (t_remote t)) ->
    (forall a d, (went_up a d o + tcount a d t' <= tcount a d t)%nat) -> inv (set_task i t' st) (tr ++ o).
  Proof.
    intros [W IT CT OP US] E HO HR TO FO NO UO CN. assert (SM := same_set _ _ _ _ E HO HR).
    assert (OPN : forall j a r, is_open (tr ++ o) j a r <-> exists u, nth_error (u_tasks (set_task i t' st)) j = Some u /\ t_origin u = a /\ t_remote u = r) by (apply (open_same tr o _ _ OP SM NO)).
    constructor.
    - exact (wf_same _ _ _ W SM).
    - rewrite to_app, for_app, TO, FO, !app_nil_r. exact IT.
    - intros a d. rewrite up_app, came_app. specialize (CT a d). unfold held in *. cbn [set_task u_sendc u_tasks]. assert (T := tsum_upd a d _ _ _ t' E). specialize (CN a d). lia.
    - exact OPN.
    - apply use_app; [exact US|]. intros x I. destruct (UO x I) as (d & ->). apply OPN. exists t'. split; [unfold set_task; cbn [u_tasks]; eapply upd_eq; exact E|auto].
  Qed.
  Lemma udp_step_inv ev st tr : inv st tr -> let (st', o) := udp_step tmo ev st in inv st' (tr ++ o).
  Proof.
    intros I. destruct ev as [wr rs rd cap now up|i|i ok|i src d|i|i]; cbn [udp_step].
    - apply poll_inv. exact I.
    - destruct (nth_error (u_tasks st) i) as [[o r [|d ch] sq []]|] eqn:E; try (apply inv_nil; exact I).
      apply (task_inv _ _ _ _ _ _ I E); auto; try (intros j a r0 []); try (intros x []; fail). intros a e. cbn [went_up]. unfold tcount. cbn [t_origin t_chan t_sendq]. rewrite cntb_app. cbn [cntb]. lia.
    - destruct (nth_error (u_tasks st) i) as [[o r ch [|d sq] []]|] eqn:E; try (apply inv_nil; exact I). destruct ok.
      + apply (task_inv _ _ _ _ _ _ I E); auto.
        * intros j a r' [X|[]]. discriminate.
        * intros x [<-|[]]. eauto.
        * intros a e. cbn [went_up]. unfold tcount. cbn [t_origin t_chan t_sendq cntb]. lia.
      + apply (task_inv _ _ _ _ _ _ I E); auto; try (intros j a r0 []); try (intros x []; fail). intros a e. cbn [went_up]. unfold tcount. cbn [t_origin t_chan t_sendq cntb]. lia.
    - destruct (nth_error (u_tasks st) i) as [[o r ch sq []]|] eqn:E; try (apply inv_nil; exact I). destruct (length (u_recv st) <? chan_cap)%nat; [|apply inv_nil; exact I].
      destruct I as [W IT CT OP US]. assert (OPN := open_same tr [OReply i o src d] _ _ OP (same_refl _)). constructor; cbn [push_recv u_sess u_tasks u_cache u_recv u_sendc].
      + exact W.
      + rewrite to_app, for_app. cbn [to_clients for_clients flat_map]. rewrite !app_nil_r. rewrite <- IT, <- !app_assoc. reflexivity.
      + intros a e. rewrite up_app, came_app. cbn [went_up came]. specialize (CT a e). unfold held in *. cbn [set_task push_recv u_sendc u_tasks]. lia.
      + apply OPN. intros j a r' [X|[]]. discriminate.
      + apply use_app; [exact US|]. intros x [<-|[]]. exists r. apply OPN; [intros j a r' [X|[]]; discriminate|]. eauto.
    - destruct (nth_error (u_tasks st) i) as [[o r ch sq []]|] eqn:E; try (apply inv_nil; exact I).
      apply (task_inv _ _ _ _ _ _ I E); auto; try (intros j a r0 []); try (intros x []; fail). intros a e. cbn [went_up]. unfold tcount. cbn [t_origin t_chan t_sendq cntb]. lia.
    - destruct (nth_error (u_tasks st) i) as [[o r ch sq []]|] eqn:E; try (apply inv_nil; exact I). destruct (length (u_recv st) <? chan_cap)%nat; [|apply inv_nil; exact I].
      destruct I as [W IT CT OP US]. assert (SM : same (u_tasks st) (u_tasks (set_task i (UTask o r ch sq Ended) (push_recv ([], o) st)))) by (unfold set_task; cbn [push_recv u_tasks]; eapply same_upd; [exact E|reflexivity|reflexivity]).
      assert (OPN := open_same tr [OEnd i o] _ _ OP SM). constructor; cbn [set_task push_recv u_sess u_tasks u_cache u_recv u_sendc].
      + exact (wf_same _ _ _ W SM).
      + rewrite to_app, for_app. cbn [to_clients for_clients flat_map]. rewrite !app_nil_r. rewrite <- IT, <- !app_assoc. reflexivity.
      + intros a e. rewrite up_app, came_app. cbn [went_up came]. specialize (CT a e). unfold held in *. cbn [set_task push_recv u_sendc u_tasks]. assert (T := tsum_upd a e _ _ _ (UTask o r ch sq Ended) E). unfold tcount in T. cbn [t_origin t_chan t_sendq] in T. lia.
      + apply OPN. intros j a r' [X|[]]. discriminate.
      + apply use_app; [exact US|]. intros x [<-|[]]. exists r. apply OPN; [intros j a r' [X|[]]; discriminate|]. eexists. split; [unfold set_task; cbn [push_recv u_tasks]; eapply upd_eq; exact E|split; reflexivity].
  Qed.
  Lemma udp_run_inv evs : forall st tr, inv st tr -> let (st', o) := udp_run tmo evs st in inv st' (tr ++ o).
  Proof.
    induction evs as [|e evs IH]; intros st tr I; cbn [udp_run]; [apply inv_nil; exact I|].
    assert (S := udp_step_inv e st tr I). destruct (udp_step tmo e st) as (st1, o1). specialize (IH st1 _ S). destruct (udp_run tmo evs st1) as (st2, o2). now rewrite app_assoc.
  Qed.
End Steps.
Lemma inv0 : inv udp0 [].
Proof.
  constructor; cbn; auto.
  - intros a s H. discriminate.
  - intros i a r. unfold is_open. cbn. split; [tauto|]. intros (t & H & _). destruct i; discriminate.
  - intros o [].
Qed.

(* ---- nothing is lost while sessions live ---- *)
Record live (st : ust) (tr : list uout) : Prop := Live {
  lv_run : Forall (fun t => t_life t = Running) (u_tasks st);
  lv_sess : forall d a, In (d, a) (u_sendc st) -> lookup N.eqb a (u_sess st) <> None;
  lv_eq : forall a d, (went_up a d tr + held a d st = came a d tr)%nat }.
Lemma run_upd ts i t : Forall (fun t => t_life t = Running) ts -> t_life t = Running -> Forall (fun t => t_life t = Running) (upd ts i t).
Proof. intros F R. revert i. induction F as [|u ts U F IH]; intros [|i]; cbn [upd]; constructor; auto. Qed.
Lemma run_nth ts i t : Forall (fun t => t_life t = Running) ts -> nth_error ts i = Some t -> t_life t = Running.
Proof. intros F E. apply nth_error_In in E. rewrite Forall_forall in F. exact (F _ E). Qed.
Lemma hand_out_live q : forall flags se ts q' ts', wf se ts -> Forall (fun t => t_life t = Running) ts -> (forall d a, In (d, a) q -> lookup N.eqb a se <> None) ->
  hand_out flags q se ts = (q', ts') ->
  Forall (fun t => t_life t = Running) ts' /\ (forall x, In x q' -> In x q) /\ forall a d, (cnt a d q' + tsum a d ts' = cnt a d q + tsum a d ts)%nat.
Proof.
  induction q as [|(d0, a0) q IH]; intros flags se ts q' ts' W F K H; cbn [hand_out] in H.
  - injection H as <- <-. split; [exact F|]. split; [auto|]. reflexivity.
  - assert (K' : forall d a, In (d, a) q -> lookup N.eqb a se <> None) by (intros d a I; apply (K d a); right; exact I).
    destruct (lookup N.eqb a0 se) as [s|] eqn:L; [|exfalso; apply (K d0 a0); [left; reflexivity|exact L]].
    destruct (W _ _ L) as (t & E & O). rewrite E in H. rewrite (run_nth _ _ _ F E) in H.
    destruct (hd false flags && (length (t_chan t) <? chan_cap)%nat).
    + set (t2 := UTask (t_origin t) (t_remote t) (t_chan t ++ [d0]) (t_sendq t) Running) in H.
      assert (S1 : same ts (upd ts (us_task s) t2)) by (eapply same_upd; [exact E|reflexivity|reflexivity]).
      destruct (IH _ _ _ _ _ (wf_same _ _ _ W S1) (run_upd ts (us_task s) t2 F eq_refl) K' H) as (A & B & C). split; [exact A|]. split; [intros x I; right; apply B, I|]. intros a d. specialize (C a d).
      assert (T := tsum_upd a d ts (us_task s) t t2 E).
      assert (TC : tcount a d t2 = (tcount a d t + hit a d a0 d0)%nat) by (unfold tcount, t2; cbn [t_origin t_chan t_sendq]; rewrite cntb_app; cbn [cntb]; rewrite O; lia).
      cbn [cnt]. lia.
    + destruct (hand_out (tl flags) q se ts) as (r, ts2) eqn:Hh. injection H as <- <-. destruct (IH _ _ _ _ _ W F K' Hh) as (A & B & C). split; [exact A|].
      split; [intros x [<-|I]; [left; reflexivity|right; apply B, I]|]. intros a d. specialize (C a d). cbn [cnt]. lia.
Qed.
Lemma live_more st tr st' o : live st tr -> Forall (fun t => t_life t = Running) (u_tasks st') -> (forall d a, In (d, a) (u_sendc st') -> lookup N.eqb a (u_sess st') <> None) ->
  (forall a d, (went_up a d o + held a d st' = held a d st + came a d o)%nat) -> live st' (tr ++ o).
Proof. intros [R S E] R' S' H. constructor; [exact R'|exact S'|]. intros a d. rewrite up_app, came_app. specialize (E a d). specialize (H a d). lia. Qed.
Section Live.
  Context (tmo : N).
  Lemma process_live now r d a st tr : live st tr -> let (st', o) := process_data tmo now (Some r) d a st in live st' (tr ++ OIn a d :: o).
  Proof.
    intros Lv. destruct Lv as [R S0 E] eqn:LE. clear LE. unfold process_data.
    assert (OPEN : forall se, (forall d a', In (d, a') (u_sendc st) -> a' <> a -> lookup N.eqb a' se <> None) ->
      live (USt (u_recv st) (u_cache st) (u_sendc st) (insert N.eqb a (USess (length (u_tasks st)) now) se) (u_tasks st ++ [UTask a r [] [d] Running])) (tr ++ [OIn a d; OOpen (length (u_tasks st)) a r])).
    { intros se Hse. apply (live_more st); [exact Lv|..]; cbn [u_tasks u_sendc u_sess].
      - apply Forall_app. split; [exact R|]. repeat constructor.
      - intros d' a' I. destruct (N.eq_dec a' a) as [->|Ne]; [rewrite lookup_insert_eq by apply N.eqb_eq; discriminate|]. rewrite lookup_insert_ne by (apply N.eqb_eq || exact Ne). exact (Hse d' a' I Ne).
      - intros b e. unfold held. cbn [u_sendc u_tasks]. rewrite tsum_app. cbn [went_up came tsum]. unfold tcount. cbn [t_origin t_chan t_sendq cntb]. lia. }
    destruct (lookup N.eqb a (u_sess st)) as [s|] eqn:L.
    - destruct (now - us_last s <=? tmo).
      + apply (live_more st); [exact Lv|exact R|..]; cbn [u_tasks u_sendc u_sess].
        * intros d' a' I. destruct (N.eq_dec a' a) as [->|Ne]; [rewrite lookup_insert_eq by apply N.eqb_eq; discriminate|]. rewrite lookup_insert_ne by (apply N.eqb_eq || exact Ne).
          apply in_app_or in I as [I|[I|[]]]; [exact (S0 d' a' I)|]. injection I as _ <-. congruence.
        * intros b e. unfold held. cbn [u_sendc u_tasks]. rewrite cnt_app. cbn [cnt went_up came]. lia.
      + apply OPEN. intros d' a' I Ne. rewrite lookup_remove_ne by (apply N.eqb_eq || exact Ne). exact (S0 d' a' I).
    - apply OPEN. intros d' a' I _. exact (S0 d' a' I).
  Qed.
  Lemma live_step ev st tr : keeps_going ev -> inv st tr -> live st tr -> let (st', o) := udp_step tmo ev st in live st' (tr ++ o).
  Proof.
    intros KG I Lv. assert (NIL : live st (tr ++ [])) by now rewrite app_nil_r. destruct Lv as [R S0 E] eqn:LE. clear LE.
    destruct ev as [wr rs rd cap now up|i|i ok|i src d|i|i]; cbn [udp_step].
    - unfold udp_poll. destruct (write_out wr (u_cache st ++ u_recv st)) as [[o cache] ok] eqn:WO. destruct (write_out_spec _ _ _ _ _ WO) as (_ & _ & C & _). destruct ok.
      + destruct (hand_out rs (u_sendc st) (u_sess st) (u_tasks st)) as (sendc, ts) eqn:HO. destruct (hand_out_live _ _ _ _ _ _ (inv_wf _ _ I) R S0 HO) as (A & B & D).
        assert (L1 : live (USt [] cache sendc (u_sess st) ts) (tr ++ o)).
        { apply (live_more st); [exact Lv|exact A|..]; cbn [u_tasks u_sendc u_sess]; [intros d a J; exact (S0 d a (B _ J))|]. intros a d. unfold held. cbn [u_sendc u_tasks]. destruct (C a d) as (-> & ->). specialize (D a d). lia. }
        destruct rd as [(a, d)|]; [|exact L1]. destruct up as [r|]; [|destruct KG].
        assert (P := process_live now r (firstn cap d) a _ _ L1). destruct (process_data tmo now (Some r) (firstn cap d) a _) as (st', o'). now rewrite <- app_assoc in P.
      + apply (live_more st); [exact Lv|exact R|exact S0|]. intros a d. unfold held. cbn [u_sendc u_tasks]. destruct (C a d) as (-> & ->). lia.
    - destruct (nth_error (u_tasks st) i) as [[o r [|d ch] sq []]|] eqn:T; try exact NIL.
      apply (live_more st); [exact Lv|apply run_upd; [exact R|reflexivity]|exact S0|]. intros a e. unfold held. cbn [set_task u_sendc u_tasks]. assert (Q := tsum_upd a e _ _ _ (UTask o r ch (sq ++ [d]) Running) T).
      unfold tcount in Q. cbn [t_origin t_chan t_sendq cntb] in Q. rewrite cntb_app in Q. cbn [cntb] in Q. cbn [went_up came]. lia.
    - destruct ok; [|destruct KG]. destruct (nth_error (u_tasks st) i) as [[o r ch [|d sq] []]|] eqn:T; try exact NIL.
      apply (live_more st); [exact Lv|apply run_upd; [exact R|reflexivity]|exact S0|]. intros a e. unfold held. cbn [set_task u_sendc u_tasks]. assert (Q := tsum_upd a e _ _ _ (UTask o r ch sq Running) T).
      unfold tcount in Q. cbn [t_origin t_chan t_sendq cntb] in Q. cbn [went_up came]. lia.
    - destruct (nth_error (u_tasks st) i) as [[o r ch sq []]|] eqn:T; try exact NIL. destruct (length (u_recv st) <? chan_cap)%nat; [|exact NIL].
      apply (live_more st); [exact Lv|exact R|exact S0|]. intros a e. unfold held. cbn [push_recv u_sendc u_tasks went_up came]. lia.
    - destruct KG.
    - destruct (nth_error (u_tasks st) i) as [[o r ch sq lf]|] eqn:T; [|exact NIL]. assert (X := run_nth _ _ _ R T). cbn [t_life] in X. subst lf. exact NIL.
  Qed.
  Lemma live_run evs : Forall keeps_going evs -> forall st tr, inv st tr -> live st tr -> let (st', o) := udp_run tmo evs st in live st' (tr ++ o).
  Proof.
    induction 1 as [|e evs K F IH]; intros st tr I Lv; cbn [udp_run]; [now rewrite app_nil_r|].
    assert (S1 := live_step e st tr K I Lv). assert (S2 := udp_step_inv tmo e st tr I). destruct (udp_step tmo e st) as (st1, o1). specialize (IH st1 _ S2 S1). destruct (udp_run tmo evs st1) as (st2, o2). now rewrite app_assoc.
  Qed.
  (* the work left *)
  Fixpoint tlen (ts : list utask) : nat := match ts with [] => 0 | t :: ts' => 2 * length (t_chan t) + length (t_sendq t) + tlen ts' end.
  Definition left_ (st : ust) : nat := (3 * length (u_sendc st) + tlen (u_tasks st))%nat.
  Lemma tlen_upd ts i t t' : nth_error ts i = Some t -> (tlen (upd ts i t') + (2 * length (t_chan t) + length (t_sendq t)) = tlen ts + (2 * length (t_chan t') + length (t_sendq t')))%nat.
  Proof. revert i; induction ts as [|u ts IH]; intros [|i] H; cbn [nth_error upd tlen] in *; try discriminate; [injection H as ->; lia|]. specialize (IH i H). lia. Qed.
  Lemma tlen_zero ts : tlen ts = 0%nat -> (forall t, In t ts -> t_chan t = [] /\ t_sendq t = []) /\ forall a d, tsum a d ts = 0%nat.
  Proof.
    induction ts as [|t ts IH]; cbn [tlen tsum]; intros H; [split; [intros t []|reflexivity]|]. destruct IH as (A & B); [lia|]. destruct t as [o r [|c ch] [|s sq] l]; cbn in H; try lia.
    split; [intros u [<-|I]; [split; reflexivity|exact (A u I)]|]. intros a d. rewrite B. reflexivity.
  Qed.
  Lemma tlen_some ts : tlen ts <> 0%nat -> exists i t, nth_error ts i = Some t /\ (t_chan t <> [] \/ t_sendq t <> []).
  Proof.
    induction ts as [|t ts IH]; cbn [tlen]; intros H; [congruence|]. destruct t as [o r [|c ch] [|s sq] l].
    - destruct IH as (i & t & A & B); [cbn in H; lia|]. exists (S i), t. split; assumption.
    - exists 0%nat. eexists. split; [reflexivity|]. right. discriminate.
    - exists 0%nat. eexists. split; [reflexivity|]. left. discriminate.
    - exists 0%nat. eexists. split; [reflexivity|]. left. discriminate.
  Qed.
  Lemma hand_out_stay q : forall se ts, wf se ts -> Forall (fun t => t_life t = Running) ts -> (forall d a, In (d, a) q -> lookup N.eqb a se <> None) -> hand_out [] q se ts = (q, ts).
  Proof.
    induction q as [|(d, a) q IH]; intros se ts W F K; [reflexivity|]. cbn [hand_out]. destruct (lookup N.eqb a se) as [s|] eqn:L; [|exfalso; apply (K d a); [left; reflexivity|exact L]].
    destruct (W _ _ L) as (t & E & O). rewrite E, (run_nth _ _ _ F E). cbn [hd andb tl]. rewrite IH by (auto; intros d' a' I; apply (K d' a'); right; exact I). reflexivity.
  Qed.
  Lemma drain n : forall st tr, left_ st = n -> inv st tr -> live st tr ->
    exists evs, Forall keeps_going evs /\ let (st', o) := udp_run tmo evs st in (forall a d, came a d o = 0%nat /\ held a d st' = 0%nat).
  Proof.
    induction n as [n IH] using (well_founded_induction lt_wf). intros st tr M I Lv.
    assert (GO : forall e, keeps_going e -> (forall st1 o1, udp_step tmo e st = (st1, o1) -> (left_ st1 < n)%nat /\ forall a d, came a d o1 = 0%nat) ->
      exists evs, Forall keeps_going evs /\ let (st', o) := udp_run tmo evs st in (forall a d, came a d o = 0%nat /\ held a d st' = 0%nat)).
    { intros e K H. assert (S1 := live_step e st tr K I Lv). assert (S2 := udp_step_inv tmo e st tr I). destruct (udp_step tmo e st) as (st1, o1) eqn:U. destruct (H _ _ eq_refl) as (Lt & C).
      destruct (IH _ Lt st1 _ eq_refl S2 S1) as (evs & F & R). exists (e :: evs). split; [constructor; assumption|]. cbn [udp_run]. rewrite U. destruct (udp_run tmo evs st1) as (st2, o2). intros a d. destruct (R a d) as (X & Y).
      rewrite came_app, C, X. split; [reflexivity|exact Y]. }
    destruct (Nat.eq_dec (tlen (u_tasks st)) 0) as [Z|NZ].
    - destruct (tlen_zero _ Z) as (ZA & ZB). destruct (u_sendc st) as [|(d, a) q] eqn:Q.
      + exists []. split; [constructor|]. cbn [udp_run]. intros a d. split; [reflexivity|]. unfold held. rewrite Q, ZB. reflexivity.
      + apply (GO (UPoll [] [true] None 0 0 None)); [exact Logic.I|]. intros st1 o1 U. cbn [udp_step] in U. unfold udp_poll in U.
        assert (WE : write_out [] (u_cache st ++ u_recv st) = ([], u_cache st ++ u_recv st, true)) by (destruct (u_cache st ++ u_recv st) as [|(x, y) z]; reflexivity). rewrite WE, Q in U. cbn [hand_out] in U.
        destruct (lookup N.eqb a (u_sess st)) as [s|] eqn:L; [|exfalso; apply (lv_sess _ _ Lv d a); [rewrite Q; left; reflexivity|exact L]].
        destruct (inv_wf _ _ I _ _ L) as (t & E & O). rewrite E, (run_nth _ _ _ (lv_run _ _ Lv) E) in U. destruct (ZA t (nth_error_In _ _ E)) as (CH & SQ). rewrite CH, SQ in U. cbn [hd andb tl length app] in U. change ((0 <? chan_cap)%nat) with true in U. cbn iota in U.
        set (t2 := UTask (t_origin t) (t_remote t) [d] [] Running) in U.
        rewrite hand_out_stay in U.
        2:{ eapply wf_same; [exact (inv_wf _ _ I)|]. eapply same_upd; [exact E|reflexivity|reflexivity]. }
        2:{ apply run_upd; [exact (lv_run _ _ Lv)|reflexivity]. }
        2:{ intros d' a' J. apply (lv_sess _ _ Lv d' a'). rewrite Q. right. exact J. }
        injection U as <- <-. split; [|reflexivity]. unfold left_ in *. cbn [u_sendc u_tasks]. rewrite Q in M. cbn [length] in M. assert (TL := tlen_upd _ _ _ t2 E). rewrite CH, SQ in TL. cbn [t2 t_chan t_sendq length] in TL. lia.
    - destruct (tlen_some _ NZ) as (i & t & E & B). assert (X := run_nth _ _ _ (lv_run _ _ Lv) E). destruct t as [o r ch sq lf]. cbn in X, B. subst lf. destruct sq as [|d sq].
      + destruct ch as [|d ch]; [destruct B; congruence|]. apply (GO (TTake i)); [exact Logic.I|]. intros st1 o1 U. cbn [udp_step] in U. rewrite E in U. injection U as <- <-. split; [|reflexivity].
        unfold left_ in *. cbn [set_task u_sendc u_tasks]. assert (TL := tlen_upd _ _ _ (UTask o r ch [d] Running) E). cbn [t_chan t_sendq length] in TL. cbn [app]. lia.
      + apply (GO (TSend i true)); [exact Logic.I|]. intros st1 o1 U. cbn [udp_step] in U. rewrite E in U. injection U as <- <-. split; [|reflexivity].
        unfold left_ in *. cbn [set_task u_sendc u_tasks]. assert (TL := tlen_upd _ _ _ (UTask o r ch sq Running) E). cbn [t_chan t_sendq length] in TL. lia.
  Qed.
End Live.
Lemma live0 : live udp0 [].
Proof. constructor; [constructor|intros d a []|reflexivity]. Qed.
