(* C192: several ports of one section. *)
From Verif Require Import Base UdpModel UdpSpec UdpProofs UdpProps MlModel.
Open Scope N_scope.

(* ---- the statements ------------------------------------------------------------------ *)
(* the connections that reached port i, in order *)
Definition reached (i : nat) (es : list tev) : list N :=
  flat_map (fun e => match e with TArrive j c => if Nat.eqb i j then [c] else [] | TRound _ => [] end) es.
(* the connections of port i the section was given, in order *)
Definition given (i : nat) (os : list tout) : list N :=
  flat_map (fun o => match o with TTaken j c => if Nat.eqb i j then [c] else [] | TError _ => [] end) os.
(* how many connections reach a port before i *)
Definition overtaking (i : nat) (es : list tev) : nat :=
  length (filter (fun e => match e with TArrive j _ => (j <? i)%nat | TRound _ => false end) es).
(* how often the branch is asked and accept fails at none of the ports *)
Definition good_rounds (es : list tev) : nat :=
  length (filter (fun e => match e with TRound bad => forallb negb bad | TArrive _ _ => false end) es).
(* whenever the branch is asked, more connections were there or have reached the first port
   than it was asked before *)
Fixpoint kept_busy (n : nat) (es : list tev) : Prop :=
  match es with
  | [] => True
  | TArrive j _ :: es' => kept_busy (if Nat.eqb 0 j then S n else n) es'
  | TRound _ :: es' => match n with O => False | S m => kept_busy m es' end
  end.
(* what is seen of port i *)
Definition seen (i : nat) (os : list (nat * uout)) : list uout := map snd (filter (fun p => Nat.eqb i (fst p)) os).
(* e happened to port i: a step of one of its tasks, or what its sockets reported when it
   was asked *)
Definition own_event (i : nat) (es : list mev) (e : uev) : Prop :=
  In (MTask i e) es \/ exists ks k, In (MRound ks) es /\ nth_error ks i = Some k /\ e = poll_of k.
(* a datagram waits at the first port *)
Definition first_busy (e : mev) : Prop :=
  match e with MTask _ _ => True | MRound ks => match ks with k :: _ => k_rd k <> None | [] => True end end.
(* a datagram is read from, or written to, the port that clients use *)
Definition at_port (o : uout) : Prop := match o with OIn _ _ | OClient _ _ | OLost _ _ => True | _ => False end.

(* ---- lists ----------------------------------------------------------------------------- *)
Lemma change_nth {A} (f : A -> A) : forall i l j, nth_error (change_at i f l) j = if Nat.eqb i j then option_map f (nth_error l j) else nth_error l j.
Proof.
  induction i as [|i IH]; intros [|x l] [|j]; cbn; try reflexivity; [now destruct (Nat.eqb i j)|apply IH].
Qed.
Lemma change_len {A} (f : A -> A) : forall i l, length (change_at i f l) = length l.
Proof. induction i as [|i IH]; intros [|x l]; cbn; try reflexivity. now rewrite IH. Qed.

(* ---- tcp ------------------------------------------------------------------------------- *)
Lemma first_len : forall l i bad, length (fst (first_ready i bad l)) = length l.
Proof.
  induction l as [|q l IH]; intros i bad; [reflexivity|]. cbn. destruct (hd false bad); [reflexivity|]. destruct q as [|c q]; [|reflexivity].
  specialize (IH (S i) (tl bad)). destruct (first_ready (S i) (tl bad) l) as [r o]. cbn in *. now rewrite IH.
Qed.
Lemma first_fifo : forall l i bad j q, nth_error l j = Some q ->
  exists q', nth_error (fst (first_ready i bad l)) j = Some q' /\
    q = given (i + j) (match snd (first_ready i bad l) with Some o => [o] | None => [] end) ++ q'.
Proof.
  induction l as [|p l IH]; intros i bad j q H; [destruct j; discriminate|]. cbn [first_ready].
  destruct (hd false bad). { exists q. split; [exact H|reflexivity]. }
  destruct p as [|c p].
  - destruct j as [|j]; cbn in H.
    + injection H as <-. destruct (first_ready (S i) (tl bad) l) as [r o] eqn:E. exists []. split; [reflexivity|]. cbn [snd]. rewrite app_nil_r.
      assert (G : forall l i bad r o, first_ready i bad l = (r, o) -> match o with Some (TTaken k _) => (i <= k)%nat | _ => True end).
      { clear. induction l as [|q l IH]; intros i bad r o E; cbn in E; [injection E as <- <-; exact I|].
        destruct (hd false bad); [injection E as <- <-; exact I|]. destruct q; [|injection E as <- <-; apply le_n].
        destruct (first_ready (S i) (tl bad) l) as [r' o'] eqn:F. injection E as <- <-. apply IH in F. destruct o' as [[k x|k]|]; try exact I. lia. }
      apply G in E. destruct o as [[k x|k]|]; try reflexivity. cbn. destruct (Nat.eqb_spec (i + 0) k); [lia|reflexivity].
    + destruct (IH (S i) (tl bad) j q H) as (q' & H1 & H2). destruct (first_ready (S i) (tl bad) l) as [r o]. cbn in *. exists q'. split; [exact H1|].
      rewrite H2 at 1. now replace (i + S j)%nat with (S (i + j)) by lia.
  - destruct j as [|j]; cbn in H.
    + injection H as <-. exists p. split; [reflexivity|]. cbn. rewrite Nat.add_0_r, Nat.eqb_refl. reflexivity.
    + exists q. split; [exact H|]. cbn. destruct (Nat.eqb_spec (i + S j) i); [lia|reflexivity].
Qed.
Lemma given_app i a b : given i (a ++ b) = given i a ++ given i b.
Proof. unfold given. apply flat_map_app. Qed.
Lemma run_fifo : forall es l i q, nth_error l i = Some q ->
  exists q', nth_error (fst (trun es l)) i = Some q' /\ q ++ reached i es = given i (snd (trun es l)) ++ q'.
Proof.
  induction es as [|e es IH]; intros l i q H; [exists q; split; [exact H|]; cbn; now rewrite app_nil_r|].
  cbn [trun]. destruct (tstep e l) as [l1 o1] eqn:S1.
  assert (K : exists q1, nth_error l1 i = Some q1 /\ q ++ reached i [e] = given i o1 ++ q1).
  { destruct e as [j c|bad]; cbn in S1.
    - injection S1 as <- <-. rewrite change_nth, H. cbn. rewrite Nat.eqb_sym. destruct (Nat.eqb i j); eexists; (split; [reflexivity|]); cbn; now rewrite ?app_nil_r.
    - destruct (first_fifo l 0 bad i q H) as (q1 & H1 & H2). destruct (first_ready 0 bad l) as [r o]. injection S1 as <- <-. exists q1. split; [exact H1|]. cbn in *. rewrite app_nil_r. exact H2. }
  destruct K as (q1 & H1 & H2). destruct (IH l1 i q1 H1) as (q' & H3 & H4). destruct (trun es l1) as [l2 o2]. exists q'. split; [exact H3|]. cbn [fst snd] in *.
  rewrite given_app, <- app_assoc, <- H4, app_assoc, <- H2, <- app_assoc. f_equal. cbn. now rewrite app_nil_r.
Qed.

(* every connection is given to the section at most once, as one of the port it reached,
   and those of one port in the order in which they reached it; the others still wait *)
Theorem C192_in_order : forall n es i, (i < n)%nat ->
  exists waiting, reached i es = given i (snd (trun es (repeat [] n))) ++ waiting /\ nth_error (fst (trun es (repeat [] n))) i = Some waiting.
Proof.
  intros n es i H. assert (N : nth_error (repeat (@nil N) n) i = Some []).
  { revert i H. induction n as [|n IH]; intros [|i] H; cbn; try lia; [reflexivity|apply IH; lia]. }
  destruct (run_fifo es _ i [] N) as (q & H1 & H2). exists q. split; [exact H2|exact H1].
Qed.

(* how many wait at the ports before i *)
Fixpoint before (i : nat) (l : ports) : nat :=
  match i, l with S i', q :: l' => (length q + before i' l')%nat | _, _ => O end.
Lemma first_served : forall l i k bad p c q, nth_error l i = Some (p ++ c :: q) ->
  let (l', o) := first_ready k bad l in
  (o = Some (TTaken (k + i) c) \/
   exists p', nth_error l' i = Some (p' ++ c :: q) /\ ((if forallb negb bad then 1 else 0) + (before i l' + length p') <= before i l + length p)%nat).
Proof.
  induction l as [|x l IH]; intros i k bad p c q H; [destruct i; discriminate|]. cbn [first_ready].
  destruct (hd false bad) eqn:HB.
  - right. exists p. split; [exact H|]. destruct bad as [|b bad]; [discriminate|]. cbn in HB. subst b. cbn. lia.
  - assert (FB : forallb negb bad = forallb negb (tl bad)) by (destruct bad as [|b bad]; [reflexivity|]; cbn in HB; subst b; reflexivity). rewrite FB.
    assert (LE : ((if forallb negb (tl bad) then 1 else 0) <= 1)%nat) by (destruct (forallb negb (tl bad)); lia).
    destruct i as [|i]; cbn in H.
    + injection H as ->. destruct p as [|d p]; cbn [app].
      * left. now rewrite Nat.add_0_r.
      * right. exists p. split; [reflexivity|]. cbn [before length]. lia.
    + destruct x as [|d x].
      * specialize (IH i (S k) (tl bad) p c q H). destruct (first_ready (S k) (tl bad) l) as [r o].
        destruct IH as [->|(p' & H1 & H2)]; [left; f_equal; f_equal; lia|right; exists p'; split; [exact H1|cbn [before length]; lia]].
      * right. exists p. split; [exact H|cbn [before length]; lia].
Qed.
Lemma change_before (d : N) : forall j i l, (before i (change_at j (fun q => q ++ [d]) l) <= before i l + (if (j <? i)%nat then 1 else 0))%nat.
Proof.
  induction j as [|j IH]; intros [|i] [|x l]; cbn [before change_at]; try lia.
  - rewrite app_length. cbn. lia.
  - specialize (IH i l). change (S j <? S i)%nat with (j <? i)%nat. lia.
Qed.
Lemma served_within : forall es l i p c q, nth_error l i = Some (p ++ c :: q) -> (before i l + length p + overtaking i es < good_rounds es)%nat ->
  In (TTaken i c) (snd (trun es l)).
Proof.
  induction es as [|e es IH]; intros l i p c q H R; [cbn in R; lia|]. cbn [trun].
  destruct e as [j d|bad]; cbn [tstep].
  - assert (K : exists q1, nth_error (change_at j (fun q => q ++ [d]) l) i = Some (p ++ c :: q1)).
    { rewrite change_nth, H. destruct (Nat.eqb j i); [|now exists q]. cbn. exists (q ++ [d]). now rewrite <- app_assoc. }
    destruct K as (q1 & H1). specialize (IH _ i p c q1 H1). assert (C := change_before d j i l).
    assert (R' : (before i (change_at j (fun q => q ++ [d]) l) + length p + overtaking i es < good_rounds es)%nat).
    { unfold overtaking, good_rounds in *. cbn [filter] in R. destruct (j <? i)%nat; cbn [length] in R; lia. }
    specialize (IH R'). destruct (trun es _) as [l2 o2]. cbn in *. exact IH.
  - assert (K := first_served l i 0 bad p c q H). destruct (first_ready 0 bad l) as [r o].
    destruct K as [->|(p' & H1 & H2)].
    + destruct (trun es r). left. reflexivity.
    + assert (J : (before i r + length p' + overtaking i es < good_rounds es)%nat).
      { unfold overtaking, good_rounds in *. cbn [filter] in R. destruct (forallb negb bad); cbn [length] in R; lia. }
      specialize (IH r i p' c q H1 J). destruct (trun es r) as [l2 o2]. cbn [snd] in *. apply in_or_app. right. exact IH.
Qed.
(* a connection that waits at port i is given to the section as soon as the branch was asked,
   without an accept error, more often than there are connections before it: at this port, at
   those before it, and coming to those before it in the meantime *)
Theorem C192_served_partial : forall n es1 es2 i p c q,
  nth_error (fst (trun es1 (repeat [] n))) i = Some (p ++ c :: q) ->
  (before i (fst (trun es1 (repeat [] n))) + length p + overtaking i es2 < good_rounds es2)%nat ->
  In (TTaken i c) (snd (trun es2 (fst (trun es1 (repeat [] n))))).
Proof. intros n es1 es2 i p c q H R. exact (served_within es2 _ i p c q H R). Qed.

Lemma busy_only : forall es q l, kept_busy (length q) es -> forall i c, In (TTaken i c) (snd (trun es (q :: l))) -> i = O.
Proof.
  induction es as [|e es IH]; intros q l B i c H; [destruct H|]. cbn [trun] in H. destruct e as [j d|bad]; cbn [tstep] in H.
  - cbn in B. destruct j as [|j]; cbn [change_at] in H.
    + specialize (IH (q ++ [d]) l). rewrite app_length, Nat.add_1_r in IH. specialize (IH B i c).
      destruct (trun es ((q ++ [d]) :: l)). exact (IH H).
    + specialize (IH q (change_at j (fun q => q ++ [d]) l) B i c). destruct (trun es (q :: change_at j (fun q => q ++ [d]) l)). exact (IH H).
  - cbn in B. destruct q as [|x q]; [destruct B|]. cbn [length] in B. cbn [first_ready] in H. destruct (hd false bad).
    + assert (B' : kept_busy (length (x :: q)) es).
      { cbn [length]. clear -B. revert B. generalize (length q). induction es as [|[j d|b] es IH]; intros n B; cbn in *; [exact I| |].
        - destruct j; cbn in *; exact (IH _ B).
        - destruct n as [|n]; [destruct B|exact (IH _ B)]. }
      specialize (IH (x :: q) l B' i c). destruct (trun es ((x :: q) :: l)). destruct H as [H|H]; [discriminate|exact (IH H)].
    + specialize (IH q l B i c). destruct (trun es (q :: l)). destruct H as [H|H]; [now injection H as <- _|exact (IH H)].
Qed.
(* false of the code: as long as connections keep coming to the first port, none of another
   port is served, however long it waits *)
Theorem C192_starved_refuted : forall n es1 es2 q, nth_error (fst (trun es1 (repeat [] n))) 0 = Some q -> kept_busy (length q) es2 ->
  forall i c, In (TTaken i c) (snd (trun es2 (fst (trun es1 (repeat [] n))))) -> i = O.
Proof.
  intros n es1 es2 q H B i c K. destruct (fst (trun es1 (repeat [] n))) as [|q0 l]; [discriminate|]. injection H as ->. exact (busy_only es2 q l B i c K).
Qed.
(* false of the code: the same while accept fails at the first port *)
Theorem C192_failing_refuted : forall es l, Forall (fun e => match e with TRound bad => hd false bad = true | _ => True end) es ->
  forall i c, ~ In (TTaken i c) (snd (trun es l)).
Proof.
  induction es as [|e es IH]; intros l F i c H; [destruct H|]. inversion F as [|e' es' F1 F2]; subst. cbn [trun] in H. destruct e as [j d|bad]; cbn [tstep] in H.
  - specialize (IH (change_at j (fun q => q ++ [d]) l) F2 i c). destruct (trun es _). exact (IH H).
  - destruct l as [|q l]; cbn [first_ready] in H.
    + specialize (IH [] F2 i c). destruct (trun es []). exact (IH H).
    + rewrite F1 in H. specialize (IH (q :: l) F2 i c). destruct (trun es (q :: l)). destruct H as [H|H]; [discriminate|exact (IH H)].
Qed.

(* ---- udp ------------------------------------------------------------------------------- *)
Lemma seen_app i a b : seen i (a ++ b) = seen i a ++ seen i b.
Proof. unfold seen. now rewrite filter_app, map_app. Qed.
Lemma seen_own i o : seen i (map (pair i) o) = o.
Proof. unfold seen. induction o as [|x o IH]; [reflexivity|]. cbn [map filter fst]. rewrite Nat.eqb_refl. cbn. now rewrite IH. Qed.
Lemma seen_other i j o : i <> j -> seen i (map (pair j) o) = [].
Proof. intros H. unfold seen. induction o as [|x o IH]; [reflexivity|]. cbn [map filter fst]. destruct (Nat.eqb_spec i j); [contradiction|exact IH]. Qed.

Section Udp.
  Context (tmo : nat -> N).
  (* one round, seen from one port: not asked, or asked once *)
  Lemma ask_one : forall l ks k i st, nth_error l i = Some st ->
    (exists st', nth_error (fst (ask_all tmo k ks l)) i = Some st' /\
      ((st' = st /\ seen (k + i) (snd (ask_all tmo k ks l)) = []) \/
       exists a, nth_error ks i = Some a /\ (st', seen (k + i) (snd (ask_all tmo k ks l))) = udp_step (tmo (k + i)%nat) (poll_of a) st)).
  Proof.
    assert (G : forall l ks k i, (i < k)%nat -> seen i (snd (ask_all tmo k ks l)) = []).
    { induction l as [|s l IH]; intros [|a ks] k i H; cbn [ask_all]; try reflexivity.
      destruct (udp_step (tmo k) (poll_of a) s) as [s' o]. destruct (ready_now a s); cbn [snd]; [apply seen_other; lia|].
      specialize (IH ks (S k) i). destruct (ask_all tmo (S k) ks l) as [r o']. cbn [snd] in *. rewrite seen_app, seen_other, IH by lia. reflexivity. }
    induction l as [|s l IH]; intros ks k i st H; [destruct i; discriminate|]. destruct ks as [|a ks]; cbn [ask_all].
    { exists st. split; [exact H|]. left. split; reflexivity. }
    destruct (udp_step (tmo k) (poll_of a) s) as [s' o] eqn:E. destruct i as [|i]; cbn in H.
    - injection H as <-. exists s'. rewrite Nat.add_0_r. destruct (ready_now a s); cbn [fst snd].
      + split; [reflexivity|]. right. exists a. split; [reflexivity|]. now rewrite seen_own, E.
      + assert (K := G l ks (S k) k (Nat.lt_succ_diag_r k)). destruct (ask_all tmo (S k) ks l) as [r o']. cbn [fst snd nth_error] in *. split; [reflexivity|]. right. exists a. split; [reflexivity|].
        now rewrite seen_app, seen_own, K, app_nil_r, E.
    - destruct (ready_now a s); cbn [fst snd].
      + exists st. split; [exact H|]. left. split; [reflexivity|apply seen_other; lia].
      + destruct (IH ks (S k) i st H) as (st' & H1 & H2). destruct (ask_all tmo (S k) ks l) as [r o']. cbn [fst snd nth_error] in *. exists st'. split; [exact H1|].
        replace (k + S i)%nat with (S k + i)%nat by lia. rewrite seen_app, seen_other by lia. exact H2.
  Qed.
  Lemma run_one : forall es l i st, nth_error l i = Some st ->
    exists evs, (forall e, In e evs -> own_event i es e) /\
      nth_error (fst (mrun tmo es l)) i = Some (fst (udp_run (tmo i) evs st)) /\ seen i (snd (mrun tmo es l)) = snd (udp_run (tmo i) evs st).
  Proof.
    induction es as [|e es IH]; intros l i st H; [exists []; split; [intros e []|]; split; [exact H|reflexivity]|].
    assert (W : forall x, own_event i es x -> own_event i (e :: es) x).
    { intros x [K|(ks & k & K1 & K2 & K3)]; [left; right; exact K|right; exists ks, k; split; [right; exact K1|split; assumption]]. }
    assert (S1 : exists st1, nth_error (fst (mstep tmo e l)) i = Some st1 /\
      ((st1 = st /\ seen i (snd (mstep tmo e l)) = []) \/ exists x, own_event i (e :: es) x /\ (st1, seen i (snd (mstep tmo e l))) = udp_step (tmo i) x st)).
    { destruct e as [j x|ks]; cbn [mstep].
      - assert (K : exists st1, nth_error (fst (match nth_error l j with Some st => let (st', o) := udp_step (tmo j) x st in (change_at j (fun _ => st') l, map (pair j) o) | None => (l, []) end)) i = Some st1 /\
          ((st1 = st /\ seen i (snd (match nth_error l j with Some st => let (st', o) := udp_step (tmo j) x st in (change_at j (fun _ => st') l, map (pair j) o) | None => (l, []) end)) = []) \/
           exists y, own_event i (MTask j x :: es) y /\ (st1, seen i (snd (match nth_error l j with Some st => let (st', o) := udp_step (tmo j) x st in (change_at j (fun _ => st') l, map (pair j) o) | None => (l, []) end))) = udp_step (tmo i) y st)).
        { destruct (nth_error l j) as [s|] eqn:J; [|exists st; split; [exact H|]; left; split; reflexivity].
          destruct (udp_step (tmo j) x s) as [s' o] eqn:E. cbn [fst snd]. rewrite change_nth, H. destruct (Nat.eqb_spec j i) as [->|N].
          - rewrite H in J. injection J as ->. exists s'. split; [reflexivity|]. right. exists x. split; [left; left; reflexivity|]. now rewrite seen_own, E.
          - exists st. split; [reflexivity|]. left. split; [reflexivity|]. apply seen_other. congruence. }
        destruct x; try exact K. exists st. split; [exact H|]. left. split; reflexivity.
      - destruct (ask_one l ks 0 i st H) as (st1 & H1 & H2). exists st1. split; [exact H1|]. destruct H2 as [H2|(a & A1 & A2)]; [left; exact H2|].
        right. exists (poll_of a). split; [right; exists ks, a; split; [left; reflexivity|split; [exact A1|reflexivity]]|exact A2]. }
    destruct S1 as (st1 & H1 & H2). cbn [mrun]. destruct (mstep tmo e l) as [l1 o1]. cbn [fst snd] in *.
    destruct (IH l1 i st1 H1) as (evs & O & E1 & E2). destruct (mrun tmo es l1) as [l2 o2]. cbn [fst snd] in *. rewrite seen_app.
    destruct H2 as [[-> N]|(x & X1 & X2)].
    - exists evs. split; [intros y Y; apply W, O, Y|]. split; [exact E1|]. now rewrite N, E2.
    - exists (x :: evs). split; [intros y [<-|Y]; [exact X1|apply W, O, Y]|]. cbn [udp_run]. rewrite <- X2. rewrite E1, E2.
      destruct (udp_run (tmo i) evs st1) as [a b]. split; reflexivity.
  Qed.
  (* with any number of ports, each behaves as if it were alone with what happens to it: so
     the statements of C41 and C73 to C76 about one port hold for each of several *)
  Theorem C192_alone : forall n es i, (i < n)%nat ->
    exists evs, (forall e, In e evs -> own_event i es e) /\
      nth_error (fst (mrun tmo es (repeat udp0 n))) i = Some (final (tmo i) evs) /\ seen i (snd (mrun tmo es (repeat udp0 n))) = trace (tmo i) evs.
  Proof.
    intros n es i H. assert (N : nth_error (repeat udp0 n) i = Some udp0).
    { revert i H. induction n as [|n IH]; intros [|i] H; cbn; try lia; [reflexivity|apply IH; lia]. }
    exact (run_one es _ i udp0 N).
  Qed.
  (* in particular what a port sends to clients is, in order, what its own sessions got for
     them, and nothing of another port *)
  Theorem C192_not_mixed : forall n es i, (i < n)%nat ->
    exists waiting, for_clients (seen i (snd (mrun tmo es (repeat udp0 n)))) = to_clients (seen i (snd (mrun tmo es (repeat udp0 n)))) ++ waiting.
  Proof. intros n es i H. destruct (C192_alone n es i H) as (evs & _ & _ & ->). apply C41_replies. Qed.

  (* and what its sessions send for a client to the backend came from that client at this port *)
  Theorem C192_own_clients : forall n es i a d, (i < n)%nat ->
    (went_up a d (seen i (snd (mrun tmo es (repeat udp0 n)))) <= came a d (seen i (snd (mrun tmo es (repeat udp0 n)))))%nat.
  Proof. intros n es i a d H. destruct (C192_alone n es i H) as (evs & _ & _ & ->). apply C41_upstream. Qed.

  Lemma task_silent t e st o : (forall wr rs rd cap now up, e <> UPoll wr rs rd cap now up) -> In o (snd (udp_step t e st)) -> ~ at_port o.
  Proof.
    intros N H A. destruct e as [wr rs rd cap now up|i|i ok|i src d|i|i]; [now destruct (N wr rs rd cap now up)| | | | |]; cbn in H.
    - destruct (nth_error _ _) as [[? ? [|? ?] ? []]|]; cbn in H; destruct H.
    - destruct (nth_error _ _) as [[? ? ? [|? ?] []]|]; cbn in H; try destruct H. destruct ok; cbn in H; [destruct H as [<-|[]]; exact A|destruct H].
    - destruct (nth_error _ _) as [[? ? ? ? []]|]; cbn in H; try destruct H. match type of H with context [if ?b then _ else _] => destruct b end; cbn in H; [destruct H as [<-|[]]; exact A|destruct H].
    - destruct (nth_error _ _) as [[? ? ? ? []]|]; cbn in H; destruct H.
    - destruct (nth_error _ _) as [[? ? ? ? []]|]; cbn in H; try destruct H. match type of H with context [if ?b then _ else _] => destruct b end; cbn in H; [destruct H as [<-|[]]; exact A|destruct H].
  Qed.
  (* false of the code: as long as datagrams keep coming to the first port, nothing is read at
     another one, and not even the replies that wait there are sent *)
  Theorem C192_udp_starved_refuted : forall es l, Forall first_busy es -> forall i o, In (i, o) (snd (mrun tmo es l)) -> at_port o -> i = O.
  Proof.
    induction es as [|e es IH]; intros l F i o H A; [destruct H|]. inversion F as [|e' es' F1 F2]; subst. cbn [mrun] in H. destruct (mstep tmo e l) as [l1 o1] eqn:E.
    specialize (IH l1 F2 i o). destruct (mrun tmo es l1) as [l2 o2]. cbn [snd] in *. apply in_app_or in H as [H|H]; [|exact (IH H A)]. clear IH.
    destruct e as [j x|ks]; cbn [mstep] in E.
    - assert (K : forall st, ~ (exists wr rs rd cap now up, x = UPoll wr rs rd cap now up) -> (let (st', oo) := udp_step (tmo j) x st in (change_at j (fun _ => st') l, map (pair j) oo)) = (l1, o1) -> False).
      { intros st N E2. assert (T := task_silent (tmo j) x st o). destruct (udp_step (tmo j) x st) as [s' oo]. injection E2 as _ <-.
        apply in_map_iff in H as (y & Y & H). injection Y as _ ->. cbn [snd] in T. revert A. apply T; [|exact H]. intros wr rs rd cap now up X. apply N. now exists wr, rs, rd, cap, now, up. }
      destruct x; [injection E as <- <-; destruct H| | | | |]; (destruct (nth_error l j) as [st|]; [|injection E as <- <-; destruct H]);
        (exfalso; apply (K st); [intros (? & ? & ? & ? & ? & ? & X); discriminate X|exact E]).
    - destruct l as [|st l]; [destruct ks; injection E as _ <-; destruct H|]. destruct ks as [|k ks]; [injection E as _ <-; destruct H|]. cbn [ask_all] in E. cbn in F1.
      assert (R : ready_now k st = true). { unfold ready_now. destruct (write_out _ _) as [[? ?] []]; [|reflexivity]. destruct (k_rd k); [reflexivity|now destruct F1]. }
      rewrite R in E. destruct (udp_step (tmo 0%nat) (poll_of k) st) as [s' oo]. injection E as _ <-. apply in_map_iff in H as (y & Y & _). now injection Y as <- _.
  Qed.

  Lemma write_ok : forall wr q, Forall (eq true) wr -> snd (write_out wr q) = true.
  Proof.
    induction wr as [|b wr IH]; intros [|[d a] q] F; try reflexivity. inversion F as [|b' wr' F1 F2]; subst. cbn. specialize (IH q F2). destruct (write_out wr q) as [[o r] ok]. exact IH.
  Qed.
  Lemma ask_takes : forall i ks l k a x d, (i < length l)%nat -> nth_error ks i = Some a -> k_rd a = Some (x, d) ->
    (forall j b, (j <= i)%nat -> nth_error ks j = Some b -> Forall (eq true) (k_wr b)) ->
    (forall j b, (j < i)%nat -> nth_error ks j = Some b -> k_rd b = None) ->
    In ((k + i)%nat, OIn x (firstn (k_cap a) d)) (snd (ask_all tmo k ks l)).
  Proof.
    induction i as [|i IH]; intros ks l k a x d L A R W B; (destruct l as [|st l]; [cbn in L; lia|]); (destruct ks as [|b ks]; [discriminate|]); cbn [ask_all].
    - cbn in A. injection A as ->. assert (Wa := W 0%nat a (le_n 0) eq_refl). assert (G := write_ok (k_wr a) (u_cache st ++ u_recv st) Wa).
      assert (I1 : In (OIn x (firstn (k_cap a) d)) (snd (udp_step (tmo k) (poll_of a) st))).
      { unfold poll_of. cbn [udp_step]. unfold udp_poll. destruct (write_out (k_wr a) (u_cache st ++ u_recv st)) as [[o c] ok]. cbn [snd] in G. subst ok.
        destruct (hand_out (k_rs a) (u_sendc st) (u_sess st) (u_tasks st)) as [sc ts]. rewrite R.
        destruct (process_data _ _ _ _ _ _) as [s' o']. cbn [snd]. apply in_or_app. right. left. reflexivity. }
      rewrite Nat.add_0_r. destruct (udp_step (tmo k) (poll_of a) st) as [s' o]. cbn [snd] in I1.
      assert (I2 : In (k, OIn x (firstn (k_cap a) d)) (map (pair k) o)) by (apply in_map; exact I1).
      destruct (ready_now a st); [exact I2|]. destruct (ask_all tmo (S k) ks l) as [r o']. cbn [snd]. apply in_or_app. left. exact I2.
    - assert (Nr : ready_now b st = false).
      { unfold ready_now. assert (G := write_ok (k_wr b) (u_cache st ++ u_recv st) (W 0%nat b (Nat.le_0_l _) eq_refl)). destruct (write_out _ _) as [[o c] ok]. cbn [snd] in G. subst ok.
        rewrite (B 0%nat b (Nat.lt_0_succ i) eq_refl). reflexivity. }
      rewrite Nr. destruct (udp_step (tmo k) (poll_of b) st) as [s' o].
      assert (L' : (i < length l)%nat) by (cbn in L; lia).
      specialize (IH ks l (S k) a x d L' A R (fun j c J => W (S j) c (le_n_S _ _ J)) (fun j c J => B (S j) c (proj1 (Nat.succ_lt_mono _ _) J))).
      destruct (ask_all tmo (S k) ks l) as [r o']. cbn [snd] in *. apply in_or_app. right. replace (k + S i)%nat with (S k + i)%nat by lia. exact IH.
  Qed.
  (* a datagram at port i is read in the first round in which none waits at the ports before
     it and no write fails there *)
  Theorem C192_udp_read_partial : forall n es ks i a x d, (i < n)%nat -> nth_error ks i = Some a -> k_rd a = Some (x, d) ->
    (forall j b, (j <= i)%nat -> nth_error ks j = Some b -> Forall (eq true) (k_wr b)) ->
    (forall j b, (j < i)%nat -> nth_error ks j = Some b -> k_rd b = None) ->
    In (i, OIn x (firstn (k_cap a) d)) (snd (mstep tmo (MRound ks) (fst (mrun tmo es (repeat udp0 n))))).
  Proof.
    intros n es ks i a x d H A R W B. cbn [mstep]. apply (ask_takes i ks _ 0 a x d); try assumption.
    destruct (C192_alone n es i H) as (evs & _ & E & _). apply nth_error_Some. congruence.
  Qed.
End Udp.

(* two ports: while the first has connections nobody of the second is served; then it is *)
Example C192_demo :
  snd (trun [TArrive 0 1; TArrive 1 7; TArrive 0 2; TRound []; TRound []; TArrive 0 3; TRound []; TRound []] [[]; []]) = [TTaken 0 1; TTaken 0 2; TTaken 0 3; TTaken 1 7] /\
  kept_busy 0 [TArrive 0 1; TArrive 1 7; TArrive 0 2; TRound []; TRound []; TArrive 0 3; TRound []] /\
  snd (trun [TArrive 1 7; TRound [true]; TRound [true; false]; TRound []] [[]; []]) = [TError 0; TError 0; TTaken 1 7] /\
  (let es1 := [TArrive 0 1; TArrive 1 6; TArrive 1 7] in let es2 := [TRound []; TArrive 0 2; TRound [true]; TRound []; TArrive 1 8; TRound [false; false]; TRound []] in
   nth_error (fst (trun es1 (repeat [] 2))) 1 = Some ([6] ++ 7 :: []) /\ before 1 (fst (trun es1 (repeat [] 2))) = 1%nat /\ overtaking 1 es2 = 1%nat /\ good_rounds es2 = 4%nat).
Proof. repeat split; repeat constructor. Qed.
(* two udp ports: a client of each, a reply at the second that waits while the first is busy *)
Example C192_udp_demo :
  let ak rd := Ask [true] [true] rd 100 0 (Some 9) in
  let es := [MRound [ak None; ak (Some (5, [1]))]; MTask 1 (TSend 0 true); MTask 1 (TReply 0 9 [2]); MRound [ak (Some (6, [3])); ak None]; MRound [ak (Some (6, [3])); ak None]] in
  snd (mrun (fun _ => 60) es [udp0; udp0]) =
    [(1%nat, OIn 5 [1]); (1%nat, OOpen 0 5 9); (1%nat, OUp 0 5 [1] 9); (1%nat, OReply 0 5 9 [2]);
     (0%nat, OIn 6 [3]); (0%nat, OOpen 0 6 9); (0%nat, OIn 6 [3])] /\
  snd (mrun (fun _ => 60) (es ++ [MRound [ak None; ak None]]) [udp0; udp0]) = snd (mrun (fun _ => 60) es [udp0; udp0]) ++ [(1%nat, OClient [2] 5)].
Proof. split; vm_compute; reflexivity. Qed.
Print Assumptions C192_in_order.
Print Assumptions C192_served_partial.
Print Assumptions C192_starved_refuted.
Print Assumptions C192_failing_refuted.
Print Assumptions C192_alone.
Print Assumptions C192_not_mixed.
Print Assumptions C192_own_clients.
Print Assumptions C192_udp_starved_refuted.
Print Assumptions C192_udp_read_partial.
