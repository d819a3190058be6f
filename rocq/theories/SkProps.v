(* C145-C148: opening of listening sockets. *)
From Coq Require Import Lia.
From Coq Require Import String.
From Verif Require Import Base Text TextOps AddrModel ConfModel RouteModel BindModel BindSpec BindProofs SkModel.
Open Scope N_scope.

(* two addresses that cannot be told apart by all connections: the same port, and the same
   IP address or one of them the wildcard *)
Definition collide (a b : saddr) : Prop :=
  sa_port a = sa_port b /\ (sa_ip a = sa_ip b \/ In (sa_ip a) [V4 0; V6 0] \/ In (sa_ip b) [V4 0; V6 0]).
(* every socket in the way belongs to the user and shares its port *)
Definition only_own (user : N) (table : list ksock) (a : saddr) : Prop :=
  forall s, In s table -> collide a (k_at s) -> k_share s = true /\ k_user s = user.

Lemma ip_eqb_ok a b : ip_eqb a b = true <-> a = b.
Proof. destruct a, b; cbn; rewrite ?N.eqb_eq; split; congruence. Qed.
Lemma any_ip_ok i : any_ip i = true <-> In i [V4 0; V6 0].
Proof. destruct i as [n|n]; cbn; rewrite N.eqb_eq; intuition congruence. Qed.
Lemma overlap_ok a b : overlap a b = true <-> collide a b.
Proof. unfold overlap, collide. rewrite andb_true_iff, !orb_true_iff, N.eqb_eq, ip_eqb_ok, !any_ip_ok. tauto. Qed.

Section Props.
  Context (family : bool -> bool) (here : saddr -> bool) (listens : saddr -> bool).
  (* the machine can listen there at all *)
  Definition of_v6 (a : saddr) : bool := match sa_ip a with V6 _ => true | V4 _ => false end.
  Definition usable (a : saddr) : Prop := family (of_v6 a) = true /\ here a = true /\ listens a = true.
  Notation bind p u := (helper_bind family here p u listens).
  Notation open p u := (open_all family here p u listens).

  Lemma sys_bind_ok p u v6 t a t' : sys_bind here p u v6 t a = Some t' <->
    v6 = is_v6 a /\ here a = true /\ only_own u t a /\ t' = KSock a p u true :: t.
  Proof.
    unfold sys_bind, only_own. destruct (Bool.eqb v6 (is_v6 a)) eqn:V; [apply Bool.eqb_prop in V|]; cycle 1.
    { cbn [andb]. split; [discriminate|]. intros (-> & _). rewrite Bool.eqb_reflx in V. discriminate. }
    destruct (here a); cbn [andb]; [|split; [discriminate|intros (_ & H & _); discriminate]].
    destruct (forallb _ t) eqn:F.
    - rewrite forallb_forall in F. split.
      + intro E. injection E as <-. repeat split; auto; intros; specialize (F s H); apply overlap_ok in H0; rewrite H0 in F; cbn [negb orb] in F; apply andb_true_iff in F; destruct F as [F1 F2]; [exact F1|now apply N.eqb_eq].
      + intros (_ & _ & _ & ->). reflexivity.
    - split; [discriminate|]. intros (_ & _ & H & _). exfalso. rewrite (proj2 (forallb_forall _ t)) in F; [discriminate|].
      intros s I. destruct (overlap a (k_at s)) eqn:O; [|reflexivity]. apply overlap_ok in O. destruct (H s I O) as [A B]. now rewrite A, B, N.eqb_refl.
  Qed.

  (* C145: an address can be opened exactly when the machine has it and nobody else's socket
     is in the way; sockets of the same user opened by this program never are *)
  Theorem C145_opened p u t a t' : bind p u t [a] = Ok (a, t') <-> usable a /\ only_own u t a /\ t' = KSock a p u true :: t.
  Proof.
    cbn [helper_bind]. unfold usable. change (of_v6 a) with (is_v6 a). destruct (family (is_v6 a)); cbn [negb]; [|split; [discriminate|intros ((H & _) & _); discriminate]].
    destruct (sys_bind here p u (is_v6 a) t a) as [t1|] eqn:S1.
    - apply sys_bind_ok in S1. destruct S1 as (_ & H & O & ->). destruct (listens a).
      + split; [intro E; injection E as <-; auto|intros (_ & _ & ->); reflexivity].
      + split; [discriminate|intros ((_ & _ & X) & _); discriminate].
    - split; [discriminate|]. intros ((_ & H & _) & O & ->). exfalso. assert (Q : sys_bind here p u (is_v6 a) t a = Some (KSock a p u true :: t)) by (apply sys_bind_ok; auto). congruence.
  Qed.
  Lemma own_cons u p t a b : only_own u t b -> only_own u (KSock a p u true :: t) b.
  Proof. intros H s [<-|I] C; [split; reflexivity|auto]. Qed.
  Lemma open_ok p u l : forall t, (forall a, In a l -> usable a) -> (forall a, In a l -> only_own u t a) ->
    open p u t l = Ok (rev (map (fun a => KSock a p u true) l) ++ t).
  Proof.
    induction l as [|a l IH]; intros t U O; [reflexivity|]. cbn [open_all].
    rewrite (proj2 (C145_opened p u t a (KSock a p u true :: t))) by (split; [apply U; now left|]; split; [apply O; now left|reflexivity]).
    cbn [rbind]. rewrite IH; [cbn [map rev]; now rewrite <- app_assoc|intros b I; apply U; now right|intros b I; apply own_cons, O; now right].
  Qed.
  (* so a reload opens all its addresses, whichever of them the running generations still
     hold: any number of generations, each with any addresses, start one after the other *)
  Theorem C145_reload u t gens : (forall p l a, In (p, l) gens -> In a l -> usable a /\ only_own u t a) ->
    exists t', fold_left (fun r (g : N * list saddr) => do t <- r ; open (fst g) u t (snd g)) gens (Ok t) = Ok t' /\
      forall p l a, In (p, l) gens -> In a l -> In (KSock a p u true) t'.
  Proof.
    revert t. induction gens as [|[p l] gens IH]; intros t H; cbn [fold_left].
    - exists t. split; [reflexivity|intros ? ? ? []].
    - cbn [rbind fst snd]. rewrite (open_ok p u l t) by (intros a I; apply (H p l a (or_introl eq_refl) I)).
      set (t1 := rev (map (fun a => KSock a p u true) l) ++ t).
      assert (O1 : forall b, only_own u t b -> only_own u t1 b).
      { intros b O s I C. apply in_app_iff in I. destruct I as [I|I]; [|auto]. apply in_rev, in_map_iff in I. destruct I as (x & <- & _). split; reflexivity. }
      destruct (IH t1) as (t' & E & K). { intros p' l' a I J. destruct (H p' l' a (or_intror I) J) as [A B]. split; [exact A|auto]. }
      exists t'. split; [exact E|]. intros p' l' a [Q|I] J; [|eapply K; eauto]. injection Q as <- <-.
      assert (M : In (KSock a p u true) t1) by (apply in_app_iff; left; apply -> in_rev; apply in_map_iff; eauto).
      clearbody t1. clear -E M. revert t1 t' E M. induction gens as [|[p' l'] gens IH]; intros t1 t' E M; cbn [fold_left] in E; [injection E as <-; exact M|].
      cbn [rbind fst snd] in E.
      assert (R : forall (x : res unit (list ksock)), (forall y, x <> Ok y) -> forall z, fold_left (fun r (g : N * list saddr) => do t <- r ; open (fst g) u t (snd g)) gens x <> Ok z).
      { clear. induction gens as [|g gens IH]; intros x H z; cbn [fold_left]; [apply H|]. apply IH. intros y. destruct x; cbn [rbind]; [exfalso; eapply H; reflexivity| |]; discriminate. }
      destruct (open p' u t1 l') as [t2| |] eqn:E2; [|exfalso; eapply R; [|exact E]; discriminate|exfalso; eapply R; [|exact E]; discriminate].
      apply (IH t2 t' E). clear -E2 M. revert t1 t2 E2 M. induction l' as [|b l' IH]; intros t1 t2 E2 M; cbn [open_all] in E2; [injection E2 as <-; exact M|].
      destruct (bind p' u t1 [b]) as [[b' t3]| |] eqn:E3; try discriminate. cbn [rbind] in E2. apply (IH t3 t2 E2).
      assert (b' = b) as -> by (cbn [helper_bind] in E3; destruct (negb _); [discriminate|]; destruct (sys_bind _ _ _ _ _ _); [|discriminate]; destruct (listens b); [|discriminate]; congruence).
      apply C145_opened in E3. destruct E3 as (_ & _ & ->). now right.
  Qed.
  (* and a foreign socket in the way is reported *)
  Theorem C145_foreign p u t a s : In s t -> collide a (k_at s) -> k_share s = false \/ k_user s <> u -> forall r, bind p u t [a] <> Ok r.
  Proof.
    intros I C F [a' t'] E. assert (a' = a) as -> by (cbn [helper_bind] in E; destruct (negb _); [discriminate|]; destruct (sys_bind _ _ _ _ _ _); [|discriminate]; destruct (listens a); [|discriminate]; congruence).
    apply C145_opened in E. destruct E as (_ & O & _). destruct (O s I C) as [A B]. destruct F; congruence.
  Qed.

  (* C146, full statement: starting the server a second time, while the first one runs, is
     refused.  False of the code: with the same configuration and the same user it always
     starts, and then both hold every address, so that the system gives new connections to
     either. *)
  Theorem C146_second_refuted p1 p2 u t l : (forall a, In a l -> usable a /\ only_own u t a) ->
    exists t1 t2, open p1 u t l = Ok t1 /\ open p2 u t1 l = Ok t2 /\
      forall a, In a l -> In (KSock a p1 u true) t2 /\ In (KSock a p2 u true) t2.
  Proof.
    intros H. rewrite (open_ok p1 u l t) by (intros a I; apply (H a I)). eexists. eexists. split; [reflexivity|]. split.
    - apply open_ok; [intros a I; apply (H a I)|]. intros a I s J C. apply in_app_iff in J. destruct J as [J|J]; [|eapply (proj2 (H a I)); eauto].
      apply in_rev, in_map_iff in J. destruct J as (x & <- & _). split; reflexivity.
    - intros a I. split; apply in_app_iff; [right; apply in_app_iff|]; left; apply -> in_rev; apply in_map_iff; eauto.
  Qed.
  (* what is left: the server of another user is refused *)
  Theorem C146_other_user_partial p1 p2 u1 u2 t l a : In a l -> u1 <> u2 -> forall t1, open p1 u1 t l = Ok t1 -> forall t2, open p2 u2 t1 l <> Ok t2.
  Proof.
    intros I N t1 E1 t2 E2.
    assert (K : forall l t t', open p1 u1 t l = Ok t' -> forall a, In a l -> In (KSock a p1 u1 true) t').
    { assert (S0 : forall l t t', open p1 u1 t l = Ok t' -> forall s, In s t -> In s t').
      { clear. induction l as [|b l IH]; intros t t' E s J; cbn [open_all] in E; [injection E as <-; exact J|].
        destruct (bind p1 u1 t [b]) as [[b' t3]| |] eqn:E3; try discriminate. cbn [rbind] in E. apply (IH _ _ E).
        assert (b' = b) as -> by (cbn [helper_bind] in E3; destruct (negb _); [discriminate|]; destruct (sys_bind _ _ _ _ _ _); [|discriminate]; destruct (listens b); [|discriminate]; congruence).
        apply C145_opened in E3. destruct E3 as (_ & _ & ->). now right. }
      clear -S0. induction l as [|b l IH]; intros t t' E a I; [destruct I|]; cbn [open_all] in E; destruct I as [->|I];
        (destruct (bind p1 u1 t [_]) as [[b' t3]| |] eqn:E3; try discriminate; cbn [rbind] in E); [|eapply IH; eauto].
      apply (S0 _ _ _ E). assert (b' = a) as -> by (cbn [helper_bind] in E3; destruct (negb _); [discriminate|]; destruct (sys_bind _ _ _ _ _ _); [|discriminate]; destruct (listens a); [|discriminate]; congruence).
      apply C145_opened in E3. destruct E3 as (_ & _ & ->). now left. }
    assert (M := K _ _ _ E1 a I). revert t1 E1 E2 M. clear -I N. intros t1 _. revert t1 t2. induction l as [|b l IH]; intros t1 t2 E2 M; [contradiction|]. cbn [open_all] in E2.
    destruct (bind p2 u2 t1 [b]) as [[b' t3]| |] eqn:E3; try discriminate. cbn [rbind] in E2.
    destruct I as [->|I].
    - refine (C145_foreign p2 u2 t1 a _ M _ (or_intror _) _ E3); [split; [reflexivity|now left]|exact N].
    - apply (IH I t3 t2 E2). assert (b' = b) as -> by (cbn [helper_bind] in E3; destruct (negb _); [discriminate|]; destruct (sys_bind _ _ _ _ _ _); [|discriminate]; destruct (listens b); [|discriminate]; congruence).
      apply C145_opened in E3. destruct E3 as (_ & _ & ->). now right.
  Qed.

  (* C147, full statement: a name that stands for several addresses is listened on if one of
     them can be.  The address taken is the first that can be opened and listened on, if all
     before it can be opened, *)
  Definition openable u t a : Prop := family (of_v6 a) = true /\ here a = true /\ only_own u t a.
  Theorem C147_taken_partial p u t l a : (exists t', bind p u t l = Ok (a, t')) <->
    exists pre post, l = pre ++ a :: post /\ openable u t a /\ listens a = true /\ forall b, In b pre -> openable u t b /\ listens b = false.
  Proof.
    assert (OE : forall b, openable u t b <-> family (is_v6 b) = true /\ here b = true /\ only_own u t b) by (intro b; unfold openable; change (of_v6 b) with (is_v6 b); reflexivity).
    setoid_rewrite OE. clear OE. induction l as [|b l IH].
    - split; [intros (t' & E); discriminate|]. intros (pre & post & E & _). destruct pre; discriminate.
    - cbn [helper_bind]. destruct (family (is_v6 b)) eqn:F; cbn [negb].
      + destruct (sys_bind here p u (is_v6 b) t b) as [t1|] eqn:S1.
        * apply sys_bind_ok in S1. destruct S1 as (_ & H & O & ->). destruct (listens b) eqn:L.
          -- split.
             ++ intros (t' & E). injection E as -> _. exists [], l. split; [reflexivity|]. split; [auto|]. split; [exact L|intros c []].
             ++ intros (pre & post & E & _ & _ & Q). destruct pre as [|c pre]; cbn [app] in E; injection E as -> E; [eauto|]. destruct (Q c (or_introl eq_refl)) as [_ X]. congruence.
          -- rewrite IH. split.
             ++ intros (pre & post & -> & A & B & Q). exists (b :: pre), post. split; [reflexivity|]. split; [exact A|]. split; [exact B|]. intros c [<-|I]; [auto|apply (Q _ I)].
             ++ intros (pre & post & E & A & B & Q). destruct pre as [|c pre]; cbn [app] in E; injection E as -> E; [congruence|]. exists pre, post. split; [exact E|]. split; [exact A|]. split; [exact B|]. intros d I. apply (Q d (or_intror I)).
        * split; [intros (t' & E); discriminate|]. intros (pre & post & E & A & B & Q). exfalso.
          assert (X : family (is_v6 b) = true /\ here b = true /\ only_own u t b) by (destruct pre as [|c pre]; cbn [app] in E; injection E as -> E; [exact A|apply (Q c (or_introl eq_refl))]).
          destruct X as (_ & X & Y). assert (Z : sys_bind here p u (is_v6 b) t b = Some (KSock b p u true :: t)) by (apply sys_bind_ok; auto). congruence.
      + split; [intros (t' & E); discriminate|]. intros (pre & post & E & A & B & Q). exfalso.
        destruct pre as [|c pre]; cbn [app] in E; injection E as -> E; [destruct A; congruence|destruct (Q c (or_introl eq_refl)) as [(X & _) _]; congruence].
  Qed.
  (* false of the code otherwise: if the first address cannot be opened, no other is tried *)
  Theorem C147_first_taken_refuted p u t a l : ~ openable u t a -> bind p u t (a :: l) = Err tt.
  Proof.
    intro H. unfold openable in H. change (of_v6 a) with (is_v6 a) in H. cbn [helper_bind]. destruct (family (is_v6 a)) eqn:F; [|reflexivity]. cbn [negb].
    destruct (sys_bind here p u (is_v6 a) t a) eqn:S1; [|reflexivity]. exfalso. apply H. apply sys_bind_ok in S1. destruct S1 as (_ & A & B & _). auto.
  Qed.

  (* C148, full statement: a stream server in udp mode listens on its addresses, IPv4 or
     IPv6.  Proved for IPv4, *)
  Notation udp_bind p u := (helper_bind_upd family here p u).
  Theorem C148_ipv4_partial p u t a : of_v6 a = false -> (udp_bind p u t [a] = Ok (a, KSock a p u true :: t) <-> family false = true /\ here a = true /\ only_own u t a).
  Proof.
    intro V. change (of_v6 a) with (is_v6 a) in V. cbn [helper_bind_upd]. destruct (family false); cbn [negb]; [|split; [discriminate|intros (H & _); discriminate]].
    destruct (sys_bind here p u false t a) as [t1|] eqn:S1.
    - apply sys_bind_ok in S1. destruct S1 as (_ & A & B & ->). split; auto.
    - split; [discriminate|]. intros (_ & A & B). exfalso. assert (Z : sys_bind here p u false t a = Some (KSock a p u true :: t)) by (apply sys_bind_ok; auto). congruence.
  Qed.
  (* false of the code for IPv6: the address is never opened, *)
  Theorem C148_ipv6_refuted p u t a l : of_v6 a = true -> udp_bind p u t (a :: l) = Err tt.
  Proof.
    intro V. change (of_v6 a) with (is_v6 a) in V. cbn [helper_bind_upd]. destruct (family false); [|reflexivity]. cbn [negb]. destruct (sys_bind here p u false t a) eqn:S1; [|reflexivity].
    apply sys_bind_ok in S1. destruct S1 as (X & _). congruence.
  Qed.
  (* and the section, so the server, does not start *)
  Theorem C148_no_start_refuted p u tcp udp ss a i : of_v6 a = true -> first_by port_of (slisted 0 ss) (a, true, i) ->
    forall ls, stream_bind (can_open family here p u listens tcp udp) ss <> Ok ls.
  Proof.
    intros V F ls E. assert (Q := proj1 (stream_bind_starts _ ss) (ex_intro _ ls E) a true i F). unfold can_open in Q. rewrite C148_ipv6_refuted in Q by exact V. discriminate.
  Qed.
  (* The section starts exactly when each address it listens on, the first for its port, can
     be opened: over tcp as in C145, over udp if it is an IPv4 one. *)
  Theorem C148_starts_partial p u tcp udp ss :
    (exists ls, stream_bind (can_open family here p u listens tcp udp) ss = Ok ls) <->
    (forall a i, first_by port_of (slisted 0 ss) (a, false, i) -> usable a /\ only_own u tcp a) /\
    (forall a i, first_by port_of (slisted 0 ss) (a, true, i) ->
       of_v6 a = false /\ family false = true /\ here a = true /\ only_own u udp a).
  Proof.
    rewrite stream_bind_starts. unfold can_open. split.
    - intros H. split; intros a i F; specialize (H _ _ _ F); cbn iota in H.
      + destruct (bind p u tcp [a]) as [[b t]| |] eqn:E; try discriminate.
        assert (b = a) as ->.
        { revert E. cbn [helper_bind]. destruct (negb (family (is_v6 a))); [discriminate|].
          destruct (sys_bind here p u (is_v6 a) tcp a); [|discriminate]. destruct (listens a); [|discriminate].
          intros E. injection E as <- _. reflexivity. }
        apply C145_opened in E. tauto.
      + destruct (of_v6 a) eqn:V; [rewrite C148_ipv6_refuted in H by exact V; discriminate|]. split; [reflexivity|].
        apply (C148_ipv4_partial p u udp a V). revert H. cbn [helper_bind_upd]. destruct (negb (family false)); [discriminate|].
        destruct (sys_bind here p u false udp a) eqn:E; [|discriminate]. apply sys_bind_ok in E as (_ & _ & _ & ->). reflexivity.
    - intros [H1 H2] a [|] i F.
      + destruct (H2 a i F) as (V & R). apply (C148_ipv4_partial p u udp a V) in R. rewrite R. reflexivity.
      + destruct (H1 a i F) as (U & O).
        rewrite (proj2 (C145_opened p u tcp a _) (conj U (conj O eq_refl))). reflexivity.
  Qed.
End Props.

(* a machine with both IP versions on which every address can be listened on *)
Definition demo := SAddr (V4 0) 80.
Definition demo6 := SAddr (V6 0) 53.
Example C145_demo : helper_bind (fun _ => true) (fun _ => true) 1 0 (fun _ => true) [KSock (SAddr (V4 7) 80) 2 0 true] [demo] =
    Ok (demo, [KSock demo 1 0 true; KSock (SAddr (V4 7) 80) 2 0 true]) /\
  helper_bind (fun _ => true) (fun _ => true) 1 0 (fun _ => true) [KSock (SAddr (V4 7) 80) 2 0 false] [demo] = Err tt /\
  open_all (fun _ => true) (fun _ => true) 1 0 (fun _ => true) [] [demo; SAddr (V4 7) 80] = Ok [KSock (SAddr (V4 7) 80) 1 0 true; KSock demo 1 0 true].
Proof. repeat split. Qed.
Example C146_demo : (forall a, In a [demo; demo6] -> usable (fun _ => true) (fun _ => true) (fun _ => true) a /\ only_own 0 [] a) /\
  open_all (fun _ => true) (fun _ => true) 2 5 (fun _ => true) [KSock demo 1 0 true] [demo] = Err tt.
Proof. split; [|reflexivity]. intros a _. split; [repeat split|intros s []]. Qed.
Example C147_demo : helper_bind (fun _ => true) (fun a => negb (of_v6 a)) 1 0 (fun _ => true) [] [demo6; demo] = Err tt /\
  helper_bind (fun _ => true) (fun _ => true) 1 0 (fun a => negb (of_v6 a)) [] [demo6; demo] = Ok (demo, [KSock demo 1 0 true]).
Proof. split; reflexivity. Qed.
Example C148_demo : first_by port_of (slisted 0 [SServer [demo6] (txt "udp")]) (demo6, true, 0%nat) /\
  stream_bind (can_open (fun _ => true) (fun _ => true) 1 0 (fun _ => true) [] []) [SServer [demo6] (txt "tcp")] = Ok [(demo6, false, 0%nat)].
Proof. split; [exists [], []; split; [reflexivity|intros []]|reflexivity]. Qed.

Print Assumptions C145_opened.
Print Assumptions C145_reload.
Print Assumptions C145_foreign.
Print Assumptions C146_second_refuted.
Print Assumptions C146_other_user_partial.
Print Assumptions C147_taken_partial.
Print Assumptions C147_first_taken_refuted.
Print Assumptions C148_ipv4_partial.
Print Assumptions C148_ipv6_refuted.
Print Assumptions C148_no_start_refuted.
Print Assumptions C148_starts_partial.
