From Coq Require Import String.
From Verif Require Import Base Text TextOps AddrModel ConfModel RouteModel BindModel BindSpec.
Open Scope N_scope.

Lemma sa_eqb_ok a b : sa_eqb a b = true <-> a = b.
Proof.
  destruct a as [[x|x] p], b as [[y|y] q]; unfold sa_eqb; cbn [sa_ip sa_port ip_eqb andb];
    try (split; [discriminate|intros E; injection E; discriminate]);
    rewrite andb_true_iff, !N.eqb_eq; (split; [intros [-> ->]; reflexivity|intros E; injection E as -> ->; split; reflexivity]).
Qed.
Lemma mem_sa_ok a l : mem_sa a l = true <-> In a l.
Proof.
  unfold mem_sa. rewrite existsb_exists. split.
  - intros (x & H & E). apply sa_eqb_ok in E as ->. exact H.
  - intros H. exists a. split; [exact H|apply sa_eqb_ok; reflexivity].
Qed.
Lemma mem_sa_not a l : mem_sa a l = false -> ~ In a l.
Proof. intros E H. apply mem_sa_ok in H. congruence. Qed.

(* the first entries of a list *)
Definition firsts {A K} (key : A -> K) (l acc : list A) : Prop :=
  NoDup (map key acc) /\ (forall x, In x acc <-> first_by key l x) /\ (forall k, In k (map key acc) <-> In k (map key l)).
Lemma first_in {A K} (key : A -> K) l x : first_by key l x -> In x l.
Proof. intros (a & b & -> & _). apply in_app_iff. right. left. reflexivity. Qed.
Lemma first_weaken {A K} (key : A -> K) l y x : first_by key l x -> first_by key (l ++ [y]) x.
Proof. intros (a & b & -> & H). exists a, (b ++ [y]). split; [rewrite <- app_assoc; reflexivity|exact H]. Qed.
Lemma first_snoc {A K} (key : A -> K) l y x : first_by key (l ++ [y]) x ->
  first_by key l x \/ (x = y /\ ~ In (key y) (map key l)).
Proof.
  intros (a & b & E & H). destruct b as [|z b] using rev_ind.
  - apply app_inj_tail in E as [-> ->]. right. split; [reflexivity|exact H].
  - clear IHb. change (a ++ x :: b ++ [z]) with (a ++ (x :: b) ++ [z]) in E. rewrite app_assoc in E.
    apply app_inj_tail in E as [-> _]. left. exists a, b. split; [reflexivity|exact H].
Qed.
Lemma firsts_nil {A K} (key : A -> K) : firsts key [] [].
Proof.
  split; [constructor|]. split; [|reflexivity]. intros x. split; [intros []|]. intros (a & b & E & _).
  destruct a; discriminate.
Qed.
Lemma firsts_skip {A K} (key : A -> K) l acc y : firsts key l acc -> In (key y) (map key l) -> firsts key (l ++ [y]) acc.
Proof.
  intros (N1 & N2 & N3) H. split; [exact N1|]. split.
  - intros x. rewrite N2. split; [apply first_weaken|]. intros F. apply first_snoc in F as [F|[_ F]]; [exact F|contradiction].
  - intros k. rewrite N3, map_app, in_app_iff. cbn [map In]. split; [tauto|]. intros [G|[<-|[]]]; assumption.
Qed.
Lemma firsts_take {A K} (key : A -> K) l acc y : firsts key l acc -> ~ In (key y) (map key l) -> firsts key (l ++ [y]) (acc ++ [y]).
Proof.
  intros (N1 & N2 & N3) H. split; [|split].
  - rewrite map_app. cbn [map]. apply (NoDup_Add (a := key y) (l := map key acc)); [|split; [exact N1|rewrite N3; exact H]].
    pose proof (Add_app (key y) (map key acc) []) as G. rewrite app_nil_r in G. exact G.
  - intros x. rewrite in_app_iff, N2. cbn [In]. split.
    + intros [F|[<-|[]]]; [apply first_weaken; exact F|]. exists l, []. split; [reflexivity|exact H].
    + intros F. apply first_snoc in F as [F|[-> _]]; [left; exact F|right; left; reflexivity].
  - intros k. rewrite !map_app, !in_app_iff, N3. reflexivity.
Qed.
Lemma firsts_one {A K} (key : A -> K) l acc x : firsts key l acc -> In x acc -> first_by key l x.
Proof. intros (_ & H & _). apply H. Qed.

Section B.
Context (can_bind : saddr -> bool).
Lemma bind_addrs_ok ssl tls l : forall done acc P d2 a2,
  bind_addrs can_bind ssl tls done acc l = Ok (d2, a2) ->
  firsts fst P acc -> (forall a, In a done <-> In a (map fst P)) ->
  firsts fst (P ++ map (fun a => (a, tls)) l) a2 /\ (forall a, In a d2 <-> In a (map fst (P ++ map (fun a => (a, tls)) l))).
Proof.
  induction l as [|a l IH]; intros done acc P d2 a2 E F D; cbn [bind_addrs map] in E.
  - injection E as <- <-. cbn [map]. rewrite app_nil_r. split; assumption.
  - replace (P ++ map (fun a => (a, tls)) (a :: l)) with ((P ++ [(a, tls)]) ++ map (fun a => (a, tls)) l)
      by (cbn [map]; rewrite <- app_assoc; reflexivity).
    destruct (mem_sa a done) eqn:M.
    + apply mem_sa_ok, D in M. refine (IH _ _ (P ++ [(a, tls)]) _ _ E _ _).
      * apply firsts_skip; assumption.
      * intros b. rewrite D, map_app, in_app_iff. cbn [map In fst]. split; [tauto|]. intros [G|[<-|[]]]; assumption.
    + apply mem_sa_not in M. destruct (tls && negb ssl); [discriminate|]. destruct (can_bind a); [|discriminate].
      refine (IH _ _ (P ++ [(a, tls)]) _ _ E _ _).
      * apply firsts_take; [exact F|]. intros H. apply M, D. exact H.
      * intros b. rewrite map_app, in_app_iff. cbn [map In fst]. rewrite D. tauto.
Qed.
Lemma bind_servers_ok ss : forall done acc P ls,
  bind_servers can_bind done acc ss = Ok ls ->
  firsts fst P acc -> (forall a, In a done <-> In a (map fst P)) -> firsts fst (P ++ listed ss) ls.
Proof.
  induction ss as [|s ss IH]; intros done acc P ls E F D; cbn [bind_servers] in E.
  - injection E as <-. cbn [listed flat_map]. rewrite app_nil_r. exact F.
  - assert (E' : (do (d1, a1) <- bind_addrs can_bind (is_ssl s) false done acc (s_bind (b_srv s)) ;
        do (d2, a2) <- bind_addrs can_bind (is_ssl s) true d1 a1 (s_bind_ssl (b_srv s)) ;
        bind_servers can_bind d2 a2 ss) = Ok ls) by (destruct (b_cert s) as [[|]|]; [exact E|discriminate|exact E]).
    clear E. destruct (bind_addrs can_bind (is_ssl s) false done acc _) as [[d1 a1]| |] eqn:E1; try discriminate.
    cbn [rbind] in E'. destruct (bind_addrs can_bind (is_ssl s) true d1 a1 _) as [[d2 a2]| |] eqn:E2; try discriminate.
    cbn [rbind] in E'. destruct (bind_addrs_ok _ _ _ _ _ _ _ _ E1 F D) as [F1 D1].
    destruct (bind_addrs_ok _ _ _ _ _ _ _ _ E2 F1 D1) as [F2 D2].
    pose proof (IH _ _ _ _ E' F2 D2) as R. rewrite <- !app_assoc in R. cbn [listed flat_map]. rewrite <- app_assoc. exact R.
Qed.
Lemma http_bind_ok ss ls : http_bind can_bind ss = Ok ls -> firsts fst (listed ss) ls.
Proof. intros E. refine (bind_servers_ok ss [] [] [] ls E _ _); [apply firsts_nil|reflexivity]. Qed.

End B.

Section SB.
Context (can_sbind : bool -> saddr -> bool).
Lemma sbind_addrs_ok i udp l : forall ports acc P p2 a2,
  sbind_addrs can_sbind i udp ports acc l = Ok (p2, a2) ->
  firsts port_of P acc -> (forall a, In a ports <-> In a (map port_of P)) ->
  firsts port_of (P ++ map (fun a => (a, udp, i)) l) a2 /\ (forall a, In a p2 <-> In a (map port_of (P ++ map (fun a => (a, udp, i)) l))).
Proof.
  induction l as [|a l IH]; intros done acc P d2 a2 E F D; cbn [sbind_addrs map] in E.
  - injection E as <- <-. cbn [map]. rewrite app_nil_r. split; assumption.
  - replace (P ++ map (fun a => (a, udp, i)) (a :: l)) with ((P ++ [(a, udp, i)]) ++ map (fun a => (a, udp, i)) l)
      by (cbn [map]; rewrite <- app_assoc; reflexivity).
    destruct (existsb (N.eqb (sa_port a)) done) eqn:M.
    + apply existsb_exists in M as (x & M & Ex). apply N.eqb_eq in Ex. subst x. apply D in M.
      refine (IH _ _ (P ++ [(a, udp, i)]) _ _ E _ _).
      * apply firsts_skip; assumption.
      * intros b. rewrite D, map_app, in_app_iff. cbn [map In]. split; [tauto|]. intros [G|[<-|[]]]; assumption.
    + destruct (can_sbind udp a); [|discriminate].
      assert (M' : ~ In (sa_port a) done).
      { intros H. assert (existsb (N.eqb (sa_port a)) done = true); [|congruence].
        apply existsb_exists. exists (sa_port a). split; [exact H|apply N.eqb_refl]. }
      refine (IH _ _ (P ++ [(a, udp, i)]) _ _ E _ _).
      * apply firsts_take; [exact F|]. intros H. apply M', D. exact H.
      * intros b. rewrite map_app, in_app_iff. cbn [map In]. rewrite D. unfold port_of at 3. cbn [fst]. tauto.
Qed.
Lemma sbind_servers_ok ss : forall i ports acc P ls,
  sbind_servers can_sbind i ports acc ss = Ok ls ->
  firsts port_of P acc -> (forall a, In a ports <-> In a (map port_of P)) -> firsts port_of (P ++ slisted i ss) ls.
Proof.
  induction ss as [|s ss IH]; intros i ports acc P ls E F D; cbn [sbind_servers] in E.
  - injection E as <-. cbn [slisted]. rewrite app_nil_r. exact F.
  - destruct (sbind_addrs can_sbind i (is_udp s) ports acc _) as [[p1 a1]| |] eqn:E1; try discriminate.
    cbn [rbind] in E. destruct (sbind_addrs_ok _ _ _ _ _ _ _ _ E1 F D) as [F1 D1].
    pose proof (IH _ _ _ _ _ E F1 D1) as R. rewrite <- app_assoc in R. exact R.
Qed.
Lemma stream_bind_ok ss ls : stream_bind can_sbind ss = Ok ls -> firsts port_of (slisted 0 ss) ls.
Proof. intros E. refine (sbind_servers_ok ss 0 [] [] [] ls E _ _); [apply firsts_nil|reflexivity]. Qed.
(* starting: every first entry of a port can be bound, and nothing else is asked for *)
Fixpoint sgo (ports : list N) (acc L : list (saddr * bool * nat)) : res unit (list N * list (saddr * bool * nat)) :=
  match L with
  | [] => Ok (ports, acc)
  | x :: L' =>
    if existsb (N.eqb (port_of x)) ports then sgo ports acc L'
    else if can_sbind (snd (fst x)) (fst (fst x)) then sgo (port_of x :: ports) (acc ++ [x]) L' else Err tt
  end.
Lemma sgo_app L1 : forall ports acc L2, sgo ports acc (L1 ++ L2) = do (p, a) <- sgo ports acc L1 ; sgo p a L2.
Proof.
  induction L1 as [|x L1 IH]; intros ports acc L2; [reflexivity|]. cbn [app sgo]. destruct (existsb _ _); [apply IH|]. destruct (can_sbind _ _); [apply IH|reflexivity].
Qed.
Lemma sgo_addrs i udp l : forall ports acc, sbind_addrs can_sbind i udp ports acc l = sgo ports acc (map (fun a => (a, udp, i)) l).
Proof. induction l as [|a l IH]; intros ports acc; [reflexivity|]. cbn [sbind_addrs map sgo]. unfold port_of at 1 2. cbn [fst snd]. destruct (existsb _ _); [apply IH|]. destruct (can_sbind udp a); [apply IH|reflexivity]. Qed.
Lemma sgo_servers ss : forall i ports acc, sbind_servers can_sbind i ports acc ss = do (_, a) <- sgo ports acc (slisted i ss) ; Ok a.
Proof.
  induction ss as [|s ss IH]; intros i ports acc; [reflexivity|]. cbn [sbind_servers slisted]. rewrite sgo_addrs, sgo_app.
  destruct (sgo ports acc _) as [[p1 a1]| |]; try reflexivity. cbn [rbind]. apply IH.
Qed.
Lemma sgo_starts L : forall ports acc, (exists r, sgo ports acc L = Ok r) <->
  (forall x, first_by port_of L x -> ~ In (port_of x) ports -> can_sbind (snd (fst x)) (fst (fst x)) = true).
Proof.
  assert (M : forall p ports, existsb (N.eqb p) ports = true <-> In p ports).
  { intros p ports. rewrite existsb_exists. split; [intros (x & I & E); apply N.eqb_eq in E; now subst|intro I; exists p; split; [exact I|apply N.eqb_refl]]. }
  induction L as [|y L IH]; intros ports acc; cbn [sgo].
  - split; [|eauto]. intros _ x (a & b & E & _). destruct a; discriminate.
  - assert (T : forall x, first_by port_of (y :: L) x <-> x = y \/ (port_of x <> port_of y /\ first_by port_of L x)).
    { intro x. split.
      - intros (a & b & E & N0). destruct a as [|z a]; cbn [app] in E; injection E as -> E; [now left|]. right. cbn [map] in N0. split; [intro Q; apply N0; left; now rewrite Q|]. exists a, b. split; [exact E|]. intro I. apply N0. now right.
      - intros [->|(D & a & b & E & N0)]; [exists [], L; split; [reflexivity|intros []]|]. exists (y :: a), b. split; [now rewrite E|]. cbn [map]. intros [Q|I]; [congruence|contradiction]. }
    destruct (existsb (N.eqb (port_of y)) ports) eqn:X.
    + apply M in X. rewrite IH. split; intros H x F.
      * intros NI. apply T in F. destruct F as [->|(_ & F)]; [contradiction|auto].
      * intros NI. apply H; [|exact NI]. apply T. right. split; [congruence|exact F].
    + assert (X' : ~ In (port_of y) ports) by (intro I; apply M in I; congruence).
      destruct (can_sbind (snd (fst y)) (fst (fst y))) eqn:C.
      * rewrite IH. split; intros H x F NI.
        -- apply T in F. destruct F as [->|(D & F)]; [exact C|]. apply H; [exact F|]. intros [Q|I]; [congruence|contradiction].
        -- apply H; [apply T; right; split; [intro Q; apply NI; left; congruence|exact F]|]. intro I. apply NI. now right.
      * split; [intros (r & E); discriminate|]. intro H. exfalso. assert (Q := H y ltac:(apply T; now left) X'). congruence.
Qed.
Lemma stream_bind_starts ss : (exists ls, stream_bind can_sbind ss = Ok ls) <->
  (forall a udp i, first_by port_of (slisted 0 ss) (a, udp, i) -> can_sbind udp a = true).
Proof.
  unfold stream_bind. rewrite sgo_servers. split.
  - intros (ls & E) a udp i F. destruct (sgo [] [] (slisted 0 ss)) as [r| |] eqn:G; try discriminate.
    exact (proj1 (sgo_starts (slisted 0 ss) [] []) (ex_intro _ r G) _ F (fun I => I)).
  - intro H. destruct (proj2 (sgo_starts (slisted 0 ss) [] [])) as ((p & ls) & E); [intros [[a udp] i] F _; exact (H a udp i F)|].
    rewrite E. now exists ls.
Qed.
End SB.

Lemma contains_ok l p : list_contains l p = true <-> exists a, In a l /\ sa_port a = p.
Proof.
  unfold list_contains. rewrite existsb_exists. split; intros (a & H & E); exists a; (split; [exact H|]); apply N.eqb_eq; exact E.
Qed.
(* the server found by port is the one whose entry comes first *)
Lemma stream_server_first ss : forall i x, first_by port_of (slisted i ss) x -> stream_server i ss (port_of x) = Some (snd x).
Proof.
  induction ss as [|s ss IH]; intros i x (a & b & E & H); cbn [slisted stream_server] in *; [destruct a; discriminate|].
  destruct (list_contains (ss_bind s) (port_of x)) eqn:C.
  - apply contains_ok in C as (y & Hy & Ey).
    (* x must lie in the entries of s *)
    assert (L : exists a' b', map (fun a => (a, leqb (ss_mode s) (txt "udp"), i)) (ss_bind s) = a' ++ x :: b' ).
    { apply app_eq_app in E as (l & [[E1 E2]|[E1 E2]]).
      - destruct l as [|z l]; cbn in E2; [rewrite app_nil_r in E1|].
        + exfalso. apply H. rewrite <- E1, map_map. apply in_map_iff. exists y. split; [exact Ey|exact Hy].
        + injection E2 as -> E2. exists a, l. exact E1.
      - exfalso. apply H. rewrite E1, map_app, map_map. apply in_app_iff. left. apply in_map_iff. exists y. split; [exact Ey|exact Hy]. }
    destruct L as (a' & b' & L). assert (I : In x (map (fun a => (a, leqb (ss_mode s) (txt "udp"), i)) (ss_bind s))).
    { rewrite L. apply in_app_iff. right. left. reflexivity. }
    apply in_map_iff in I as (z & <- & _). reflexivity.
  - apply IH. apply app_eq_app in E as (l & [[E1 E2]|[E1 E2]]).
    + destruct l as [|z l]; cbn in E2; [rewrite app_nil_r in E1|].
      * exists [], b. split; [symmetry; exact E2|intros []].
      * exfalso. injection E2 as -> E2.
        assert (I : In z (map (fun a => (a, leqb (ss_mode s) (txt "udp"), i)) (ss_bind s))) by (rewrite E1; apply in_app_iff; right; left; reflexivity).
        apply in_map_iff in I as (y & Ez & Hy). assert (list_contains (ss_bind s) (port_of z) = true); [|congruence].
        apply contains_ok. exists y. split; [exact Hy|]. rewrite <- Ez. reflexivity.
    + exists l, b. split; [exact E2|]. intros G. apply H. rewrite E1, map_app. apply in_app_iff. right. exact G.
Qed.

Lemma local_servers_ok ss p s : In s (local_servers ss p) <-> In s ss /\ has_port s p.
Proof.
  unfold local_servers. rewrite filter_In, orb_true_iff, !contains_ok. unfold has_port, lists. split.
  - intros [H [(a & A & B)|(a & A & B)]]; (split; [exact H|]); exists a; tauto.
  - intros [H (a & [A|A] & B)]; (split; [exact H|]); [left|right]; exists a; split; assumption.
Qed.
Lemma pick_in ss h s : pick_server ss h = Some s -> In s ss.
Proof.
  induction ss as [|x ss IH]; [discriminate|]. cbn [pick_server]. destruct ss as [|y ss].
  - intros E. injection E as <-. left. reflexivity.
  - destruct (_ || _); [intros E; injection E as <-; left; reflexivity|]. intros E. right. exact (IH E).
Qed.
Lemma pick_named ss h s a b : ss = a ++ s :: b -> s_up_name s = h -> Forall (fun x => s_up_name x <> h) a ->
  h <> [] -> pick_server ss h = Some s.
Proof.
  intros -> Hs Ha Hh. induction Ha as [|x a Hx _ IH]; cbn [app pick_server].
  - destruct b; [reflexivity|]. rewrite (proj2 (leqb_ok (s_up_name s) h) Hs). reflexivity.
  - destruct (a ++ s :: b) as [|y l] eqn:E; [destruct a; discriminate|].
    destruct (leqb (s_up_name x) h) eqn:L; [apply leqb_ok in L; contradiction|]. cbn [orb].
    destruct h; [contradiction|]. exact IH.
Qed.
Lemma pick_unnamed ss h s : ss <> [] -> Forall (fun x => s_up_name x <> h) ss -> h <> [] ->
  pick_server ss h = Some s <-> exists a, ss = a ++ [s].
Proof.
  intros Hn Ha Hh. induction Ha as [|x l Hx Hl IH]; [contradiction|]. cbn [pick_server]. destruct l as [|y l].
  - split; [intros E; injection E as <-; exists []; reflexivity|]. intros ([|z a] & E); injection E; [intros ->; reflexivity|].
    intros E2. destruct a; discriminate.
  - destruct (leqb (s_up_name x) h) eqn:L; [apply leqb_ok in L; contradiction|]. cbn [orb]. destruct h; [contradiction|].
    rewrite IH by discriminate. split.
    + intros (a & ->). exists (x :: a). reflexivity.
    + intros ([|z a] & E); [discriminate|]. injection E as <- E. exists a. exact E.
Qed.
Lemma pick_nohost s ss : pick_server (s :: ss) [] = Some s.
Proof. destruct ss; [reflexivity|]. cbn [pick_server]. rewrite orb_true_r. reflexivity. Qed.

Lemma bind_addrs_total can ssl tls l : (forall a, In a l -> can a = true) -> (l <> [] -> tls = true -> ssl = true) ->
  forall done acc, exists d2 a2, bind_addrs can ssl tls done acc l = Ok (d2, a2).
Proof.
  induction l as [|a l IH]; intros C S1 done acc; cbn [bind_addrs]; [eauto|].
  assert (IH' := IH (fun b H => C b (or_intror H)) (fun _ => S1 ltac:(discriminate))).
  destruct (mem_sa a done); [apply IH'|].
  assert (E : tls && negb ssl = false) by (destruct tls; [rewrite S1 by (reflexivity || discriminate)|]; reflexivity).
  rewrite E, (C a (or_introl eq_refl)). apply IH'.
Qed.
Lemma http_bind_total can ss :
  (forall s a, In s ss -> lists (b_srv s) a -> can a = true) ->
  (forall s, In s ss -> b_cert s <> Some false) ->
  (forall s, In s ss -> s_bind_ssl (b_srv s) <> [] -> b_cert s = Some true) ->
  exists ls, http_bind can ss = Ok ls.
Proof.
  intros A B C. unfold http_bind. generalize (@nil saddr), (@nil (saddr * bool)).
  induction ss as [|s ss IH]; intros done acc; cbn [bind_servers]; [eauto|].
  destruct (bind_addrs_total can (is_ssl s) false (s_bind (b_srv s))) with (done := done) (acc := acc) as (d1 & a1 & E1);
    [intros a H; apply (A s a); [left; reflexivity|left; exact H]|discriminate|].
  destruct (bind_addrs_total can (is_ssl s) true (s_bind_ssl (b_srv s))) with (done := d1) (acc := a1) as (d2 & a2 & E2);
    [intros a H; apply (A s a); [left; reflexivity|right; exact H]| |].
  { intros Hn _. unfold is_ssl. rewrite (C s (or_introl eq_refl) Hn). reflexivity. }
  destruct (IH (fun s' a H => A s' a (or_intror H)) (fun s' H => B s' (or_intror H)) (fun s' H => C s' (or_intror H)) d2 a2) as (ls & E).
  exists ls. pose proof (B s (or_introl eq_refl)) as Bs.
  destruct (b_cert s) as [[|]|]; try contradiction; rewrite E1; cbn [rbind]; rewrite E2; cbn [rbind]; exact E.
Qed.
Lemma listed_in ss a t : In (a, t) (listed ss) <-> exists s, In s ss /\ In a (if t : bool then s_bind_ssl (b_srv s) else s_bind (b_srv s)).
Proof.
  unfold listed. rewrite in_flat_map. split.
  - intros (s & H & I). exists s. split; [exact H|]. apply in_app_iff in I as [I|I]; apply in_map_iff in I as (x & E & I); injection E as <- <-; exact I.
  - intros (s & H & I). exists s. split; [exact H|]. apply in_app_iff.
    destruct t; [right|left]; apply in_map_iff; exists a; (split; [reflexivity|exact I]).
Qed.
Lemma first_exists {A K} (key : A -> K) (dec : forall a b : K, {a = b} + {a <> b}) l x : In x l -> exists y, first_by key l y /\ key y = key x.
Proof.
  induction l as [|z l IH]; [intros []|]. intros H. destruct (dec (key z) (key x)) as [E|E].
  - exists z. split; [exists [], l; split; [reflexivity|intros []]|exact E].
  - destruct H as [->|H]; [congruence|]. destruct (IH H) as (y & (a & b & -> & F) & Ey). exists y. split; [|exact Ey].
    exists (z :: a), b. split; [reflexivity|]. intros [G|G]; [congruence|exact (F G)].
Qed.
