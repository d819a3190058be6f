From Coq Require Import Lia Sorted.
From Coq Require Import String.
From Verif Require Import Base Text TextOps AddrModel ProtModel IdModel CoreModel CoreSpec.
Open Scope N_scope.

Lemma lkind_eqb_ok a b : lkind_eqb a b = true <-> a = b.
Proof. destruct a, b; split; intro H; (reflexivity || discriminate H). Qed.
Lemma mem_nat_ok j l : mem_nat j l = true <-> In j l.
Proof. unfold mem_nat. rewrite existsb_exists. split; [intros (x & H & E); apply Nat.eqb_eq in E; now subst|intro H; exists j; split; [exact H|apply Nat.eqb_refl]]. Qed.
Lemma settled_app k a b : settled k (a ++ b) = settled k a ++ settled k b. Proof. apply flat_map_app. Qed.
Lemma tunnels_app a b : tunnels (a ++ b) = tunnels a ++ tunnels b. Proof. apply flat_map_app. Qed.
Lemma numbers_app j a b : numbers j (a ++ b) = numbers j a ++ numbers j b. Proof. apply flat_map_app. Qed.
Lemma in_tunnels tr j : In j (tunnels tr) <-> opened tr j.
Proof.
  unfold tunnels, opened. rewrite in_flat_map. split.
  - intros (o & H & I). destruct o; try contradiction. destruct I as [<-|[]]. eexists. exact H.
  - intros (c & H). exists (XTunnel j c). split; [exact H|now left].
Qed.

Lemma cut_left {A} (a b c d : list A) o : a ++ b = c ++ o :: d -> (length a <= length c)%nat -> exists t, c = a ++ t.
Proof.
  revert c. induction a as [|x a IH]; intros c H L; [exists c; reflexivity|]. destruct c as [|y c]; [cbn in L; lia|]. cbn [app] in H. injection H as <- H. cbn [length] in L. destruct (IH c H ltac:(lia)) as (t & ->). exists t. reflexivity.
Qed.
Lemma cut_right {A} (a b c d : list A) o : a ++ b = c ++ o :: d -> (length c < length a)%nat -> exists p, a = c ++ o :: p.
Proof.
  revert a. induction c as [|y c IH]; intros a H L; destruct a as [|x a]; cbn [length app] in *; try lia.
  - injection H as -> H. exists a. reflexivity.
  - injection H as -> H. destruct (IH a H ltac:(lia)) as (p & ->). exists p. reflexivity.
Qed.

Ltac one I := cbn [snd In] in I; repeat match type of I with _ \/ _ => destruct I as [<-|I] | False => destruct I end; try exact Logic.I; try reflexivity.
Section R.
  Context (cf : ccfg).

  Lemma corun_app es : forall s es', corun cf s (es ++ es') =
    (fst (corun cf (fst (corun cf s es)) es'), snd (corun cf s es) ++ snd (corun cf (fst (corun cf s es)) es')).
  Proof.
    induction es as [|e es IH]; intros s es'; cbn [app corun].
    - cbn [fst snd app]. destruct (corun cf s es'); reflexivity.
    - destruct (costep cf s e) as [s1 o1]. rewrite IH. destruct (corun cf s1 es) as [s2 o2]. cbn [fst snd]. destruct (corun cf s2 es') as [s3 o3]. cbn [fst snd]. now rewrite app_assoc.
  Qed.

  (* ---- the tunnels ---- *)
  Definition ids (l : list (nat * N)) : list nat := map fst l.
  Record inv (s : core) (tr : list coout) : Prop := {
    iv_tun : tunnels tr = seq 0 (co_made s);
    iv_dead : forall j, In j (co_dead s) <-> In (XOver j) tr;
    iv_live : filter (fun j => negb (mem_nat j (co_dead s))) (ids (co_servers s)) = filter (fun j => negb (mem_nat j (co_dead s))) (seq 0 (co_made s));
    iv_sub : incl (ids (co_servers s)) (seq 0 (co_made s));
    iv_next : forall j n, In (j, n) (co_servers s) -> n = (2 + 2 * nlen (numbers j tr)) mod 4294967296;
    iv_zero : forall j, (co_made s <= j)%nat -> numbers j tr = [];
    iv_over : forall j, In (XOver j) tr -> (j < co_made s)%nat }.

  Definition neutral (o : coout) : bool := match o with XTunnel _ _ | XVisitor _ _ _ _ | XOver _ => false | _ => true end.
  Lemma neutral_tunnels l : forallb neutral l = true -> tunnels l = [].
  Proof. induction l as [|o l IH]; [reflexivity|]. cbn [forallb]. intro H. apply andb_true_iff in H. destruct H as (A & B). destruct o; try discriminate A; exact (IH B). Qed.
  Lemma neutral_numbers j l : forallb neutral l = true -> numbers j l = [].
  Proof. induction l as [|o l IH]; [reflexivity|]. cbn [forallb]. intro H. apply andb_true_iff in H. destruct H as (A & B). destruct o; try discriminate A; exact (IH B). Qed.
  Lemma neutral_over j l : forallb neutral l = true -> ~ In (XOver j) l.
  Proof. intros H I. rewrite forallb_forall in H. specialize (H _ I). discriminate H. Qed.
  Lemma inv_neutral s tr s' l : inv s tr -> forallb neutral l = true -> co_servers s' = co_servers s -> co_dead s' = co_dead s -> co_made s' = co_made s -> inv s' (tr ++ l).
  Proof.
    intros [A B C D E F G] N H1 H2 H3. constructor; rewrite ?H1, ?H2, ?H3.
    - rewrite tunnels_app, (neutral_tunnels l N), app_nil_r. exact A.
    - intro j. rewrite B, in_app_iff. split; [auto|]. intros [H|H]; [exact H|]. now apply neutral_over in H.
    - exact C.
    - exact D.
    - intros j n I. rewrite numbers_app, (neutral_numbers j l N), app_nil_r. exact (E j n I).
    - intros j L. rewrite numbers_app, (neutral_numbers j l N), app_nil_r. exact (F j L).
    - intros j I. apply in_app_iff in I. destruct I as [I|I]; [exact (G j I)|]. now apply neutral_over in I.
  Qed.
  Lemma filter_none {A} (f : A -> bool) l : (forall x, In x l -> f x = false) -> filter f l = [].
  Proof. induction l as [|x l IH]; intro H; [reflexivity|]. cbn [filter]. rewrite (H x (or_introl eq_refl)). apply IH. intros y I. apply H. now right. Qed.
  Lemma filter_ids (f : nat -> bool) l : ids (filter (fun x => f (fst x)) l) = filter f (ids l).
  Proof. induction l as [|[j n] l IH]; [reflexivity|]. cbn [filter ids map fst]. destruct (f j); cbn [map fst]; unfold ids in IH; now rewrite IH. Qed.
  Lemma filter_twice {A} (f : A -> bool) l : filter f (filter f l) = filter f l.
  Proof. induction l as [|x l IH]; [reflexivity|]. cbn [filter]. destruct (f x) eqn:E; cbn [filter]; rewrite ?E, IH; reflexivity. Qed.

  Lemma inv_center c s tr : inv s tr -> let r := deal_center cf c s in inv (fst r) (tr ++ snd r).
  Proof.
    intros V. unfold deal_center. destruct (cf_up cf); cbn [fst snd].
    { apply (inv_neutral s); (reflexivity || assumption). }
    destruct V as [A B C D E F G]. constructor; cbn [co_servers co_dead co_made].
    - rewrite tunnels_app, A. rewrite seq_S. reflexivity.
    - intro j. rewrite B, in_app_iff. split; [auto|]. intros [H|[H|[]]]; [exact H|discriminate H].
    - unfold ids. rewrite map_app, seq_S, !filter_app. f_equal. exact C.
    - unfold ids. rewrite map_app, seq_S. cbn [map fst Nat.add]. apply incl_app; [apply incl_appl; exact D|apply incl_appr, incl_refl].
    - intros j n I. rewrite numbers_app, app_nil_r. apply in_app_iff in I. destruct I as [I|[I|[]]]; [exact (E j n I)|]. injection I as <- <-. rewrite (F _ (Nat.le_refl _)). reflexivity.
    - intros j L. rewrite numbers_app, app_nil_r. apply F. lia.
    - intros j I. apply in_app_iff in I. destruct I as [I|[I|[]]]; [specialize (G j I); lia|discriminate I].
  Qed.
  Lemma seq_filter_head f n j l : filter f (seq 0 n) = j :: l -> f j = true /\ (j < n)%nat /\ forall i, (i < n)%nat -> f i = true -> (j <= i)%nat.
  Proof.
    intro H.
    assert (I : In j (filter f (seq 0 n))) by (rewrite H; now left). apply filter_In in I. destruct I as (I & J). apply in_seq in I. split; [exact J|]. split; [lia|].
    intros i L K. assert (I' : In i (filter f (seq 0 n))) by (apply filter_In; split; [apply in_seq; lia|exact K]).
    assert (SO : StronglySorted Nat.lt (filter f (seq 0 n))).
    { clear. generalize 0%nat. induction n as [|n IH]; intro a; [constructor|]. cbn [seq filter]. destruct (f a); [|apply IH]. constructor; [apply IH|]. apply Forall_forall. intros x H. apply filter_In in H. destruct H as (H & _). apply in_seq in H. lia. }
    rewrite H in SO, I'. inversion SO as [|x y Q W]; subst. destruct I' as [<-|I']; [lia|]. rewrite Forall_forall in W. specialize (W i I'). lia.
  Qed.
  Lemma inv_alive s tr : inv s tr -> forall j, alive tr j <-> (j < co_made s)%nat /\ mem_nat j (co_dead s) = false.
  Proof.
    intros V j. unfold alive. rewrite <- in_tunnels, (iv_tun s tr V), in_seq, <- (iv_dead s tr V), <- mem_nat_ok. split.
    - intros (H & K). split; [lia|]. destruct (mem_nat j (co_dead s)); [exfalso; now apply K|reflexivity].
    - intros (H & ->). split; [lia|discriminate].
  Qed.
  Definition next_number (j : nat) (tr : list coout) : N := calc_sock_map (cf_sid cf) ((2 + 2 * nlen (numbers j tr)) mod 4294967296).
  (* the outcome for a visitor *)
  Definition visitor_fate (k : lkind) (c : N) (tr l : list coout) : Prop :=
    (l = [XDrop k c] /\ forall i, ~ alive tr i) \/
    exists j, l = [XVisitor k c j (next_number j tr)] /\ oldest_alive tr j.
  Lemma inv_visitor k c s tr : inv s tr -> let r := deal_visitor cf k c s in inv (fst r) (tr ++ snd r) /\ visitor_fate k c tr (snd r).
  Proof.
    intros V. assert (AL := inv_alive s tr V). assert (V' := V). destruct V' as [A B C D E F G]. unfold deal_visitor.
    set (f := fun j => negb (mem_nat j (co_dead s))) in *.
    change (filter (fun x => negb (mem_nat (fst x) (co_dead s))) (co_servers s)) with (filter (fun x => f (fst x)) (co_servers s)).
    assert (LI := filter_ids f (co_servers s)). rewrite C in LI.
    destruct (filter (fun x => f (fst x)) (co_servers s)) as [|[j n] l] eqn:L; cbn [ids map fst] in LI.
    - cbn [fst snd]. split.
      + assert (W := inv_neutral s tr (Core CListen (co_servers s) (co_dead s) (co_made s) (co_wait s) (co_next s) (co_queue s) (co_stop s)) [XDrop k c] V eq_refl eq_refl eq_refl eq_refl).
        destruct W as [A' B' C' D' E' F' G']. constructor; cbn [co_servers co_dead co_made] in *; try assumption.
        * intros x [].
        * intros j n [].
      + left. split; [reflexivity|]. intros i H. apply AL in H. destruct H as (H1 & H2). assert (I : In i (filter f (seq 0 (co_made s)))) by (apply filter_In; split; [apply in_seq; lia|unfold f; now rewrite H2]). rewrite <- LI in I. exact I.
    - cbn [calc_next_id fst snd]. symmetry in LI. destruct (seq_filter_head f _ _ _ LI) as (J1 & J2 & J3). unfold calc_next_id. cbn [fst snd].
      assert (IJ : In (j, n) (co_servers s)) by (assert (I : In (j, n) ((j, n) :: l)) by (now left); rewrite <- L in I; apply filter_In in I; tauto).
      assert (N1 : n = (2 + 2 * nlen (numbers j tr)) mod 4294967296) by (exact (E j n IJ)).
      assert (ND : NoDup (j :: map fst l)) by (rewrite <- LI; apply NoDup_filter, seq_NoDup).
      split.
      + constructor; cbn [co_servers co_dead co_made].
        * rewrite tunnels_app, app_nil_r. exact A.
        * intro i. rewrite B, in_app_iff. split; [auto|]. intros [H|[H|[]]]; [exact H|discriminate H].
        * cbn [ids map fst]. fold f. rewrite <- LI. apply filter_twice.
        * cbn [ids map fst]. rewrite <- LI. intros x I. apply filter_In in I. tauto.
        * intros i m [I|I].
          -- injection I as <- <-. rewrite numbers_app. cbn [numbers flat_map]. rewrite Nat.eqb_refl. cbn [app]. rewrite nlen_app. change (nlen [calc_sock_map (cf_sid cf) n]) with 1.
             rewrite N1. rewrite N.add_mod_idemp_l by discriminate. f_equal. lia.
          -- rewrite numbers_app. cbn [numbers flat_map]. inversion ND as [|x y Q W]; subst x y. assert (j <> i) by (intros ->; apply Q; apply in_map_iff; exists (i, m); auto).
             destruct (Nat.eqb j i) eqn:Z; [apply Nat.eqb_eq in Z; contradiction|]. rewrite app_nil_r. apply E. assert (I' : In (i, m) ((j, n) :: l)) by (now right). rewrite <- L in I'. apply filter_In in I'. tauto.
        * intros i H. rewrite numbers_app. cbn [numbers flat_map]. destruct (Nat.eqb j i) eqn:Z; [apply Nat.eqb_eq in Z; lia|]. rewrite app_nil_r. exact (F i H).
        * intros i I. apply in_app_iff in I. destruct I as [I|[I|[]]]; [exact (G i I)|discriminate I].
      + right. exists j. split; [now rewrite N1|]. split; [apply AL; split; [exact J2|]; unfold f in J1; now apply negb_true_iff in J1|].
        intros i H. apply AL in H. destruct H as (H1 & H2). apply J3; [exact H1|]. unfold f. now rewrite H2.
  Qed.
  Lemma inv_client c s tr : inv s tr -> let r := deal_client cf c s in inv (fst r) (tr ++ snd r).
  Proof.
    intros V. unfold deal_client, calc_next_id. destruct (cf_tunnel cf); [destruct (room <=? co_queue s)%nat|]; cbn [fst snd]; apply (inv_neutral s); (reflexivity || assumption).
  Qed.
  Lemma inv_same s tr : inv s tr -> inv s (tr ++ []). Proof. now rewrite app_nil_r. Qed.
  Lemma inv_gone j s tr : inv s tr -> let r := costep cf s (CGone j) in inv (fst r) (tr ++ snd r).
  Proof.
    intros V. cbn [costep]. destruct ((j <? co_made s)%nat && negb (mem_nat j (co_dead s))) eqn:Z; cbn [fst snd]; [|now apply inv_same]. apply andb_true_iff in Z. destruct Z as (Z1 & Z2). apply Nat.ltb_lt in Z1.
    destruct V as [A B C D E F G]. constructor; cbn [co_servers co_dead co_made].
    - rewrite tunnels_app, app_nil_r. exact A.
    - intro i. rewrite in_app_iff. cbn [In]. rewrite B. split.
      + intros [->|H]; auto.
      + intros [H|[H|[]]]; [now right|]. injection H as ->. now left.
    - set (f := fun i => negb (mem_nat i (co_dead s))) in *. set (g := fun i => negb (Nat.eqb i j)).
      assert (FG : forall l, filter (fun i => negb (mem_nat i (j :: co_dead s))) l = filter g (filter f l)).
      { induction l as [|i l IH]; [reflexivity|]. cbn [filter]. rewrite IH. unfold f at 3, g at 3. cbn [mem_nat existsb]. fold (mem_nat i (co_dead s)). destruct (mem_nat i (co_dead s)); cbn [negb filter]; [now rewrite orb_true_r|]. rewrite orb_false_r. unfold g at 2. destruct (Nat.eqb i j); reflexivity. }
      rewrite !FG, C. reflexivity.
    - exact D.
    - intros i n I. rewrite numbers_app, app_nil_r. exact (E i n I).
    - intros i L. rewrite numbers_app, app_nil_r. exact (F i L).
    - intros i I. apply in_app_iff in I. destruct I as [I|[I|[]]]; [exact (G i I)|]. injection I as <-. exact Z1.
  Qed.
  Lemma inv_ext s s' tr : inv s tr -> co_servers s' = co_servers s -> co_dead s' = co_dead s -> co_made s' = co_made s -> inv s' tr.
  Proof. intros V A B C. rewrite <- (app_nil_r tr). apply (inv_neutral s); auto. Qed.
  Lemma inv_step e s tr : inv s tr -> let r := costep cf s e in inv (fst r) (tr ++ snd r).
  Proof.
    intros V. destruct e as [k c|k|ok|ok| |j| |]; try (apply inv_gone; exact V); cbn [costep].
    - apply (inv_neutral s); (reflexivity || assumption).
    - destruct (co_phase s); try (apply inv_same; exact V). destruct (take k (co_wait s)) as [[c w]|]; [|apply inv_same; exact V].
      assert (V' : inv (with_wait w s) tr) by (apply (inv_ext s); auto). destruct k.
      + apply inv_client; exact V'.
      + destruct (cf_tls cf); [apply (inv_neutral s); (reflexivity || assumption)|apply inv_center; exact V'].
      + apply inv_visitor; exact V'.
      + apply inv_visitor; exact V'.
      + apply inv_visitor; exact V'.
      + apply inv_visitor; exact V'.
      + apply (inv_neutral s); (reflexivity || assumption).
      + apply (inv_neutral s); (reflexivity || assumption).
    - destruct (co_phase s); try (apply inv_same; exact V). destruct ok; [|apply (inv_neutral s); (reflexivity || assumption)].
      assert (V' : inv (with_phase CListen s) (tr ++ [XSecure c])) by (apply (inv_neutral s); (reflexivity || assumption)). assert (Q := inv_center c _ _ V'). cbv zeta in Q. destruct (deal_center cf c (with_phase CListen s)) as [s' o]. cbn [fst snd] in *. rewrite <- app_assoc in Q. exact Q.
    - destruct (co_phase s); try (apply inv_same; exact V). apply (inv_neutral s); try reflexivity; [exact V|]. destruct ok; reflexivity.
    - destruct (co_queue s); [apply inv_same; exact V|]. destruct (co_phase s); apply (inv_neutral s); (reflexivity || assumption).
    - apply (inv_neutral s); (reflexivity || assumption).
    - destruct (co_phase s); try (apply inv_same; exact V). destruct (co_stop s); [apply (inv_neutral s); (reflexivity || assumption)|apply inv_same; exact V].
  Qed.
  Lemma inv0 : inv core0 [].
  Proof. constructor; cbn; try reflexivity; try (intros; contradiction); try (intros j; split; intros []). intros x []. Qed.
  Lemma inv_run es : forall s tr, inv s tr -> inv (fst (corun cf s es)) (tr ++ snd (corun cf s es)).
  Proof.
    induction es as [|e es IH]; intros s tr V; cbn [corun]; [now apply inv_same|].
    assert (Q := inv_step e s tr V). cbv zeta in Q. destruct (costep cf s e) as [s1 o1]. cbn [fst snd] in Q. specialize (IH _ _ Q). destruct (corun cf s1 es) as [s2 o2]. cbn [fst snd] in *. rewrite <- app_assoc in IH. exact IH.
  Qed.

  Lemma occurs o tr2 es : forall s s' tr1, corun cf s es = (s', tr1 ++ o :: tr2) ->
    exists es1 e es2 pre post, es = es1 ++ e :: es2 /\ snd (costep cf (fst (corun cf s es1)) e) = pre ++ o :: post /\ tr1 = snd (corun cf s es1) ++ pre.
  Proof.
    induction es as [|e es IH]; intros s s' tr1 H; cbn [corun] in H.
    - injection H as _ H. destruct tr1; discriminate H.
    - destruct (costep cf s e) as [s1 o1] eqn:E. destruct (corun cf s1 es) as [s2 o2] eqn:R. injection H as <- H.
      destruct (le_lt_dec (length o1) (length tr1)) as [L|L].
      + assert (T := cut_left _ _ _ _ _ H L).
        destruct T as (t & ->). rewrite <- app_assoc in H. apply app_inv_head in H. subst o2. destruct (IH s1 s2 t R) as (es1 & e' & es2 & pre & post & -> & A & B).
        exists (e :: es1), e', es2, pre, post. cbn [corun app]. rewrite E. destruct (corun cf s1 es1) as [s3 o3]. cbn [fst snd] in *. split; [reflexivity|]. split; [exact A|]. rewrite B, app_assoc. reflexivity.
      + exists [], e, es, tr1. assert (T := cut_right _ _ _ _ _ H L).
        destruct T as (p & T). exists p. cbn [corun fst snd app]. rewrite E. cbn [snd]. auto.
  Qed.
  Lemma center_out c s : snd (deal_center cf c s) = [] \/ snd (deal_center cf c s) = [XTunnel (co_made s) c].
  Proof. unfold deal_center. destruct (cf_up cf); auto. Qed.
  Lemma client_out c s : snd (deal_client cf c s) = [] \/ (exists id, snd (deal_client cf c s) = [XForward c id]) \/ snd (deal_client cf c s) = [XLocal c].
  Proof. unfold deal_client, calc_next_id. destruct (cf_tunnel cf); [destruct (room <=? co_queue s)%nat|]; cbn [snd]; eauto. Qed.
  Definition visitorish (k : lkind) : bool := match k with LHttp | LHttps | LTcp | LProxy => true | _ => false end.
  (* the steps that settle a visitor *)
  Lemma step_visitor s tr e : inv s tr -> (exists k c, visitorish k = true /\ visitor_fate k c tr (snd (costep cf s e))) \/
    (forall o, In o (snd (costep cf s e)) -> match o with XVisitor _ _ _ _ => False | XDrop k _ => visitorish k = false | _ => True end).
  Proof.
    intro V. destruct e as [k c|k|ok|ok| |j| |]; cbn [costep].
    - right. intros o [].
    - destruct (co_phase s); try solve [right; intros o []]. destruct (take k (co_wait s)) as [[c w]|]; [|right; intros o []].
      assert (V' : inv (with_wait w s) tr) by (apply (inv_ext s); auto).
      assert (VI : visitorish k = true -> exists k c0, visitorish k = true /\ visitor_fate k c0 tr (snd (deal_visitor cf k c (with_wait w s)))) by (intro Q; exists k, c; split; [exact Q|apply inv_visitor; exact V']).
      destruct k; try (left; destruct (VI eq_refl) as (k & c0 & A & B); apply inv_visitor; exact V').
      + right. intros o I. destruct (client_out c (with_wait w s)) as [H|[(id & H)|H]]; rewrite H in I; one I.
      + right. intros o. destruct (cf_tls cf); intro I; [destruct I|]. destruct (center_out c (with_wait w s)) as [H|H]; rewrite H in I; one I.
      + left. exists LHttp, c. split; [reflexivity|]. apply inv_visitor; exact V'.
      + left. exists LHttps, c. split; [reflexivity|]. apply inv_visitor; exact V'.
      + left. exists LTcp, c. split; [reflexivity|]. apply inv_visitor; exact V'.
      + left. exists LProxy, c. split; [reflexivity|]. apply inv_visitor; exact V'.
      + right. intros o [<-|[]]. exact Logic.I.
      + right. intros o [<-|[]]. exact Logic.I.
    - destruct (co_phase s); try solve [right; intros o []]. destruct ok; [|right; intros o I; one I]. right. intros o I.
      destruct (center_out c (with_phase CListen s)) as [H|H]; destruct (deal_center cf c (with_phase CListen s)) as [s' l]; cbn [snd] in *; subst l; cbn [In] in I; intuition; subst o; exact Logic.I.
    - destruct (co_phase s); try solve [right; intros o []]. right. intros o [<-|[]]. destruct ok; [exact Logic.I|reflexivity].
    - destruct (co_queue s); [right; intros o I; one I|]. destruct (co_phase s); right; intros o I; one I.
    - destruct (_ && _); right; intros o I; one I.
    - right. intros o [].
    - destruct (co_phase s); try solve [right; intros o I; one I]. destruct (co_stop s); right; intros o I; one I.
  Qed.
  Lemma visitor_given es s tr1 k c j id tr2 : corun cf core0 es = (s, tr1 ++ XVisitor k c j id :: tr2) -> oldest_alive tr1 j /\ id = next_number j tr1.
  Proof.
    intro H. destruct (occurs _ _ _ _ _ _ H) as (es1 & e & es2 & pre & post & -> & A & B).
    assert (V := inv_run es1 _ _ inv0). cbn [app] in V. destruct (step_visitor _ _ e V) as [(k' & c' & _ & [(F & _)|(j' & F & O)])|F].
    - rewrite F in A. destruct pre as [|x pre]; [discriminate A|]. injection A as _ A. destruct pre; discriminate A.
    - rewrite F in A. destruct pre as [|x pre]; [|injection A as _ A; destruct pre; discriminate A]. injection A as _ _ <- <- _. rewrite app_nil_r in B. subst tr1. split; [exact O|reflexivity].
    - exfalso. refine (F (XVisitor k c j id) _). rewrite A. apply in_app_iff. right. now left.
  Qed.
  Lemma visitor_dropped es s tr1 k c tr2 : visitorish k = true -> corun cf core0 es = (s, tr1 ++ XDrop k c :: tr2) -> forall j, ~ alive tr1 j.
  Proof.
    intros K H. destruct (occurs _ _ _ _ _ _ H) as (es1 & e & es2 & pre & post & -> & A & B).
    assert (V := inv_run es1 _ _ inv0). cbn [app] in V. destruct (step_visitor _ _ e V) as [(k' & c' & _ & [(F & O)|(j' & F & O)])|F].
    - rewrite F in A. destruct pre as [|x pre]; [|injection A as _ A; destruct pre; discriminate A]. rewrite app_nil_r in B. subst tr1. exact O.
    - rewrite F in A. destruct pre as [|x pre]; [discriminate A|]. injection A as _ A. destruct pre; discriminate A.
    - exfalso. specialize (F (XDrop k c)). cbn beta iota in F. rewrite F in K; [discriminate K|]. rewrite A. apply in_app_iff. right. now left.
  Qed.
  Lemma all_numbers es s tr : corun cf core0 es = (s, tr) -> forall j, numbers j tr = allocate (cf_sid cf) server_first (length (numbers j tr)).
  Proof.
    intros H j.
    assert (SN : forall sid n k, allocate sid k (S n) = allocate sid k n ++ [calc_sock_map sid ((k + 2 * N.of_nat n) mod 4294967296)] \/ k mod 4294967296 <> k).
    { clear. intros sid n. induction n as [|n IH]; intro k.
      - destruct (N.eq_dec (k mod 4294967296) k) as [Q|Q]; [left|now right]. cbn. change (2 * 0) with 0. rewrite N.add_0_r, Q. reflexivity.
      - destruct (N.eq_dec (k mod 4294967296) k) as [Q|Q]; [left|now right]. change (allocate sid k (S (S n))) with (calc_sock_map sid k :: allocate sid ((k + 2) mod 4294967296) (S n)).
        change (allocate sid k (S n)) with (calc_sock_map sid k :: allocate sid ((k + 2) mod 4294967296) n). destruct (IH ((k + 2) mod 4294967296)) as [-> |Z]; [|exfalso; apply Z; apply N.mod_mod; discriminate].
        cbn [app]. f_equal. f_equal. f_equal. rewrite N.add_mod_idemp_l by discriminate. f_equal. f_equal. lia. }
    assert (G : forall tr1 tr2, tr = tr1 ++ tr2 -> numbers j tr1 = allocate (cf_sid cf) server_first (length (numbers j tr1))).
    { intros tr1. induction tr1 as [|o tr1 IH] using rev_ind; intros tr2 E; [reflexivity|]. rewrite <- app_assoc in E. specialize (IH _ E). rewrite numbers_app.
      destruct o as [| | |k c i id| | | | | |]; cbn [numbers flat_map]; try (now rewrite app_nil_r). destruct (Nat.eqb i j) eqn:Z; [|now rewrite app_nil_r]. apply Nat.eqb_eq in Z. subst i.
      rewrite E in H. cbn [app] in H. destruct (visitor_given _ _ _ _ _ _ _ _ H) as (_ & ->). rewrite app_nil_r, app_length. cbn [length]. rewrite Nat.add_1_r.
      destruct (SN (cf_sid cf) (length (numbers j tr1)) server_first) as [-> |Q]; [|exfalso; apply Q; reflexivity]. rewrite <- IH. unfold next_number, nlen. reflexivity. }
    apply (G tr []). now rewrite app_nil_r.
  Qed.

  (* ---- no connection is lost ---- *)
  Definition inside (k : lkind) (s : core) : list N :=
    match co_phase s with
    | CShake c | CDial c => if lkind_eqb LCenter k then [c] else []
    | CRoom c _ => if lkind_eqb LClient k then [c] else []
    | _ => []
    end.
  Definition outside (k : lkind) (s : core) : list N := flat_map (fun x => if lkind_eqb (fst x) k then [snd x] else []) (co_wait s).
  Lemma take_outside k : forall l c w, take k l = Some (c, w) ->
    flat_map (fun x => if lkind_eqb (fst x) k then [snd x] else []) l = c :: flat_map (fun x => if lkind_eqb (fst x) k then [snd x] else []) w /\
    forall k', k' <> k -> flat_map (fun x => if lkind_eqb (fst x) k' then [snd x] else []) l = flat_map (fun x => if lkind_eqb (fst x) k' then [snd x] else []) w.
  Proof.
    induction l as [|[k0 c0] l IH]; intros c w H; cbn [take] in H; [discriminate|]. destruct (lkind_eqb k0 k) eqn:Z.
    - injection H as <- <-. cbn [flat_map fst snd]. rewrite Z. split; [reflexivity|]. intros k' D. destruct (lkind_eqb k0 k') eqn:Z'; [|reflexivity]. apply lkind_eqb_ok in Z, Z'. congruence.
    - destruct (take k l) as [[x r]|]; [|discriminate]. injection H as <- <-. destruct (IH x r eq_refl) as (A & B). cbn [flat_map fst snd]. rewrite Z. split; [exact A|]. intros k' D. now rewrite (B k' D).
  Qed.
  Definition kept (k : lkind) (s : core) : list N := inside k s ++ outside k s.
  Lemma kind_dec (a b : lkind) : {a = b} + {a <> b}. Proof. decide equality. Qed.
  Lemma eqb_refl_k k : lkind_eqb k k = true. Proof. now apply lkind_eqb_ok. Qed.
  Lemma eqb_ne k k' : k <> k' -> lkind_eqb k k' = false. Proof. intro H. destruct (lkind_eqb k k') eqn:Z; [apply lkind_eqb_ok in Z; contradiction|reflexivity]. Qed.
  Lemma step_kept k s e : kept k s ++ arrived k [e] = settled k (snd (costep cf s e)) ++ kept k (fst (costep cf s e)).
  Proof.
    unfold kept. destruct e as [k0 c|k0|ok|ok| |j| |]; cbn [costep arrived flat_map]; rewrite ?app_nil_r.
    - cbn [fst snd settled flat_map app]. unfold inside, outside, with_wait. cbn [co_phase co_wait]. rewrite flat_map_app. cbn [flat_map fst snd]. rewrite app_nil_r. now rewrite app_assoc.
    - unfold inside at 1. destruct (co_phase s) eqn:P; cbn [fst snd settled flat_map app]; try (unfold inside; rewrite P; reflexivity).
      destruct (take k0 (co_wait s)) as [[c w]|] eqn:T; [|cbn [fst snd settled flat_map app]; unfold inside; rewrite P; reflexivity].
      destruct (take_outside _ _ _ _ T) as (A & B). unfold outside at 1.
      assert (IL : forall s', co_phase s' = CListen -> inside k s' = []) by (intros s' Q; unfold inside; rewrite Q; reflexivity).
      assert (GOAL : forall o s', co_wait s' = w -> settled k o ++ inside k s' = (if lkind_eqb k0 k then [c] else []) ->
         flat_map (fun x => if lkind_eqb (fst x) k then [snd x] else []) (co_wait s) = settled k o ++ inside k s' ++ outside k s').
      { intros o s' W Q. rewrite app_assoc, Q. unfold outside. rewrite W. destruct (kind_dec k0 k) as [->|D]; [rewrite eqb_refl_k; exact A|]. rewrite (eqb_ne _ _ D). apply B. congruence. }
      assert (VI : visitorish k0 = true -> flat_map (fun x => if lkind_eqb (fst x) k then [snd x] else []) (co_wait s) = settled k (snd (deal_visitor cf k0 c (with_wait w s))) ++ inside k (fst (deal_visitor cf k0 c (with_wait w s))) ++ outside k (fst (deal_visitor cf k0 c (with_wait w s)))).
      { intros _. unfold deal_visitor, calc_next_id. destruct (filter _ _) as [|[j n] l]; cbn [fst snd]; apply GOAL; try reflexivity; cbn [settled flat_map inside co_phase]; rewrite !app_nil_r; reflexivity. }
      destruct k0; try (apply VI; reflexivity).
      + unfold deal_client, calc_next_id. destruct (cf_tunnel cf); [destruct (room <=? co_queue _)%nat|]; cbn [fst snd]; apply GOAL; try reflexivity; cbn [settled flat_map inside co_phase with_phase app]; rewrite ?app_nil_r; reflexivity.
      + destruct (cf_tls cf); [|unfold deal_center; destruct (cf_up cf)]; cbn [fst snd]; apply GOAL; try reflexivity; cbn [settled flat_map inside co_phase with_phase app]; rewrite ?app_nil_r; reflexivity.
      + cbn [fst snd]. apply GOAL; [reflexivity|]. unfold inside, with_wait. cbn [co_phase settled flat_map]. rewrite P, !app_nil_r. reflexivity.
      + cbn [fst snd]. apply GOAL; [reflexivity|]. unfold inside, with_wait. cbn [co_phase settled flat_map]. rewrite P, !app_nil_r. reflexivity.
    - unfold inside at 1. destruct (co_phase s) eqn:P; cbn [fst snd settled flat_map app]; try (unfold inside; rewrite P; reflexivity).
      destruct ok; [|cbn [fst snd settled flat_map app inside with_phase co_phase]; rewrite app_nil_r; reflexivity].
      unfold deal_center. destruct (cf_up cf); cbn [fst snd settled flat_map app inside with_phase co_phase]; rewrite ?app_nil_r; reflexivity.
    - unfold inside at 1. destruct (co_phase s) eqn:P; cbn [fst snd settled flat_map app]; try (unfold inside; rewrite P; reflexivity).
      destruct ok; cbn [fst snd settled flat_map app inside with_phase co_phase]; rewrite app_nil_r; reflexivity.
    - destruct (co_queue s); [reflexivity|]. unfold inside at 1. destruct (co_phase s) eqn:P; cbn [fst snd settled flat_map app]; try (unfold inside, with_phase; cbn [co_phase]; rewrite ?P; rewrite ?app_nil_r; reflexivity).
    - destruct (_ && _); reflexivity.
    - reflexivity.
    - unfold inside at 1. destruct (co_phase s) eqn:P; cbn [fst snd settled flat_map app]; try (unfold inside; rewrite P; reflexivity). destruct (co_stop s); cbn [fst snd settled flat_map app]; [reflexivity|unfold inside; rewrite P; reflexivity].
  Qed.
  Lemma run_kept k es : forall s, kept k s ++ arrived k es = settled k (snd (corun cf s es)) ++ kept k (fst (corun cf s es)).
  Proof.
    induction es as [|e es IH]; intro s; cbn [corun]; [cbn; now rewrite app_nil_r|]. assert (Q := step_kept k s e). destruct (costep cf s e) as [s1 o1]. cbn [fst snd] in Q. specialize (IH s1). destruct (corun cf s1 es) as [s2 o2]. cbn [fst snd] in *.
    change (e :: es) with ([e] ++ es). unfold arrived in *. rewrite flat_map_app, app_assoc, Q, <- app_assoc, IH, settled_app, app_assoc. reflexivity.
  Qed.

  (* ---- waiting ---- *)
  Definition calm (o : coout) : bool := match o with XOver _ => true | _ => false end.
  Definition stuck_event (p : cphase) (e : coev) : bool :=
    match p, e with CShake _, CShaken _ => false | CDial _, CDialed _ => false | CRoom _ _, CTake => false | (CListen | CEnd), _ => false | _, _ => true end.
  Lemma stuck_step s e : stuck_event (co_phase s) e = true -> co_phase (fst (costep cf s e)) = co_phase s /\ forallb calm (snd (costep cf s e)) = true.
  Proof.
    destruct e as [k c|k|ok|ok| |j| |]; cbn [costep]; destruct (co_phase s) eqn:P; intro H; try discriminate H; cbn [fst snd]; auto;
      try (destruct (_ && _); cbn [fst snd co_phase]; auto); try (destruct (co_queue s); cbn [fst snd co_phase]; auto).
  Qed.
  Lemma stuck_run es : forall s, forallb (stuck_event (co_phase s)) es = true -> co_phase (fst (corun cf s es)) = co_phase s /\ forallb calm (snd (corun cf s es)) = true.
  Proof.
    induction es as [|e es IH]; intros s H; cbn [corun]; [auto|]. cbn [forallb] in H. apply andb_true_iff in H. destruct H as (H1 & H2). destruct (stuck_step s e H1) as (A & B). destruct (costep cf s e) as [s1 o1]. cbn [fst snd] in *. rewrite <- A in H2. destruct (IH s1 H2) as (C & D). destruct (corun cf s1 es) as [s2 o2]. cbn [fst snd] in *. rewrite forallb_app, B, D. split; [congruence|reflexivity].
  Qed.
  (* nothing is awaited in the loop *)
  Lemma free_step s e : cf_tls cf = false -> cf_up cf = false -> cf_tunnel cf = false -> (co_phase s = CListen \/ co_phase s = CEnd) ->
    (co_phase (fst (costep cf s e)) = CListen /\ co_phase s = CListen \/ co_phase (fst (costep cf s e)) = CEnd) /\
    (co_phase s = CListen -> co_phase (fst (costep cf s e)) = CEnd -> In XReturn (snd (costep cf s e))).
  Proof.
    intros T U K P. destruct e as [k c|k|ok|ok| |j| |]; cbn [costep]; destruct P as [P|P]; rewrite P; cbn [fst snd co_phase with_wait]; rewrite ?P; try solve [split; [auto|congruence]].
    - destruct (take k (co_wait s)) as [[c w]|]; [|cbn [fst snd]; rewrite P; split; [auto|congruence]].
      assert (V : forall k c s, co_phase (fst (deal_visitor cf k c s)) = CListen) by (intros; unfold deal_visitor, calc_next_id; destruct (filter _ _) as [|[j n] l]; reflexivity).
      destruct k; rewrite ?V, ?T; try solve [split; [auto|congruence]].
      + unfold deal_client. rewrite K. cbn. split; [auto|congruence].
      + unfold deal_center. rewrite U. cbn. split; [auto|congruence].
      + cbn. rewrite P. split; [auto|congruence].
      + cbn. rewrite P. split; [auto|congruence].
    - destruct (co_queue s); cbn [fst snd co_phase]; rewrite ?P; split; auto; congruence.
    - destruct (co_queue s); cbn [fst snd co_phase]; rewrite ?P; split; auto; congruence.
    - destruct (_ && _); cbn [fst snd co_phase]; rewrite ?P; split; auto; congruence.
    - destruct (_ && _); cbn [fst snd co_phase]; rewrite ?P; split; auto; congruence.
    - destruct (co_stop s); cbn [fst snd co_phase with_phase]; rewrite ?P; (split; [auto|]); intros; try congruence. now left.
  Qed.
  Lemma free_run es : forall s, cf_tls cf = false -> cf_up cf = false -> cf_tunnel cf = false -> co_phase s = CListen -> ~ In XReturn (snd (corun cf s es)) -> co_phase (fst (corun cf s es)) = CListen.
  Proof.
    induction es as [|e es IH]; intros s T U K P N; cbn [corun] in *; [exact P|]. destruct (free_step s e T U K (or_introl P)) as (A & B). destruct (costep cf s e) as [s1 o1]. cbn [fst snd] in *. specialize (IH s1 T U K). destruct (corun cf s1 es) as [s2 o2]. cbn [fst snd] in *.
    destruct A as [(A & _)|A].
    - apply IH; [exact A|]. intro I. apply N. apply in_app_iff. now right.
    - exfalso. apply N. apply in_app_iff. left. exact (B P A).
  Qed.
  (* what the loop waits for happens: a handshake ends, the upper server answers, the
     tunnel client takes a create from its queue *)
  Definition full (s : core) : Prop := forall c id, co_phase s = CRoom c id -> (room <= co_queue s)%nat.
  Lemma full_step s e : full s -> full (fst (costep cf s e)).
  Proof.
    intros F. unfold full in *. destruct e; cbn [costep].
    - exact F.
    - destruct (co_phase s) eqn:P; try (intros ? ?; cbn [fst]; rewrite P; intro X; (discriminate X || exact (F _ _ X))).
      destruct (take k (co_wait s)) as [[x w]|]; [|intros ? ? X; cbn [fst] in X; congruence].
      destruct k; unfold deal_client, deal_center, deal_visitor; cbn [with_wait co_servers co_dead co_queue co_phase];
        repeat match goal with |- context [let (_, _) := calc_next_id ?a ?b in _] => destruct (calc_next_id a b) | |- context [if (room <=? co_queue s)%nat then _ else _] => destruct (Nat.leb_spec room (co_queue s))
               | |- context [if ?b then _ else _] => destruct b | |- context [match filter ?a ?b with _ => _ end] => destruct (filter a b) as [|[? ?] ?] end;
        cbn [fst with_phase with_wait co_phase co_queue]; intros ? ? X; try discriminate X; try congruence; auto.
    - destruct (co_phase s) eqn:P; try (intros ? ?; cbn [fst]; rewrite P; intro X; (discriminate X || exact (F _ _ X))).
      destruct ok; [unfold deal_center; destruct (cf_up cf)|]; cbn [fst with_phase co_phase]; intros; discriminate.
    - destruct (co_phase s) eqn:P; try (intros ? ?; cbn [fst]; rewrite P; intro X; (discriminate X || exact (F _ _ X))).
      cbn [fst with_phase co_phase]. intros; discriminate.
    - destruct (co_queue s) eqn:Q; [intros c id X; cbn [fst] in *; rewrite Q; exact (F c id X)|].
      destruct (co_phase s) eqn:P; cbn [fst with_phase co_phase]; intros; try discriminate; congruence.
    - destruct ((j <? co_made s)%nat && negb (mem_nat j (co_dead s))); exact F.
    - exact F.
    - destruct (co_phase s) eqn:P; try (intros ? ?; cbn [fst]; rewrite P; intro X; (discriminate X || exact (F _ _ X))).
      destruct (co_stop s); cbn [fst with_phase co_phase]; intros; try discriminate; congruence.
  Qed.
  Lemma full_run es : forall s, full s -> full (fst (corun cf s es)).
  Proof.
    induction es as [|e es IH]; intros s F; [exact F|]. cbn [corun]. assert (G := full_step s e F). destruct (costep cf s e) as [s1 o1].
    specialize (IH s1 G). destruct (corun cf s1 es) as [s2 o2]. exact IH.
  Qed.
  Lemma ended_step s e : co_phase (fst (costep cf s e)) = CEnd -> co_phase s = CEnd \/ In XReturn (snd (costep cf s e)).
  Proof.
    destruct e; cbn [costep].
    - auto.
    - destruct (co_phase s) eqn:P; try (cbn [fst]; rewrite P; auto; fail).
      destruct (take k (co_wait s)) as [[x w]|]; [|cbn [fst]; congruence].
      destruct k; unfold deal_client, deal_center, deal_visitor; cbn [with_wait co_servers co_dead co_queue co_phase];
        repeat match goal with |- context [let (_, _) := calc_next_id ?a ?b in _] => destruct (calc_next_id a b)
               | |- context [if ?b then _ else _] => destruct b | |- context [match filter ?a ?b with _ => _ end] => destruct (filter a b) as [|[? ?] ?] end;
        cbn [fst with_phase with_wait co_phase co_queue]; congruence.
    - destruct (co_phase s) eqn:P; try (cbn [fst]; rewrite P; auto; fail).
      destruct ok; [unfold deal_center; destruct (cf_up cf)|]; cbn [fst with_phase co_phase]; congruence.
    - destruct (co_phase s) eqn:P; try (cbn [fst]; rewrite P; auto; fail). cbn [fst with_phase co_phase]. congruence.
    - destruct (co_queue s); [auto|]. destruct (co_phase s) eqn:P; cbn [fst with_phase co_phase]; auto. congruence.
    - destruct ((j <? co_made s)%nat && negb (mem_nat j (co_dead s))); auto.
    - auto.
    - destruct (co_phase s) eqn:P; try (cbn [fst]; rewrite P; auto; fail). destruct (co_stop s); cbn [fst snd]; [right; left; reflexivity|congruence].
  Qed.
  Lemma ended_run es : forall s, co_phase (fst (corun cf s es)) = CEnd -> co_phase s = CEnd \/ In XReturn (snd (corun cf s es)).
  Proof.
    induction es as [|e es IH]; intros s H; [left; exact H|]. cbn [corun] in *. assert (G := ended_step s e). destruct (costep cf s e) as [s1 o1].
    specialize (IH s1). destruct (corun cf s1 es) as [s2 o2]. cbn [fst snd] in *. destruct (IH H) as [X|X]; [destruct (G X)|]; rewrite ?in_app_iff; auto.
  Qed.
  Lemma freed s ok1 ok2 : full s -> co_phase s <> CEnd ->
    let r := corun cf s [CShaken ok1; CDialed ok2; CTake] in co_phase (fst r) = CListen /\ co_wait (fst r) = co_wait s /\ co_stop (fst r) = co_stop s.
  Proof.
    intros F E. cbn [corun costep]. destruct (co_phase s) eqn:P; try congruence.
    - rewrite P. cbn [with_phase co_queue co_phase]. rewrite ?P. destruct (co_queue s); cbn [fst co_phase co_wait co_stop]; auto.
    - destruct ok1; [unfold deal_center; destruct (cf_up cf)|]; cbn [with_phase co_phase co_queue fst snd]; destruct (co_queue s); cbn [fst co_phase co_wait co_stop]; auto.
    - rewrite P. cbn [with_phase co_queue co_phase]. destruct (co_queue s); cbn [fst co_phase co_wait co_stop]; auto.
    - rewrite P. specialize (F _ _ P). unfold room in F. destruct (co_queue s) eqn:Q; [lia|]. rewrite P. cbn [fst with_phase co_phase co_wait co_stop]. auto.
  Qed.
  Lemma stop_kept es : forall s, co_stop s = true \/ In CStop es -> co_stop (fst (corun cf s es)) = true.
  Proof.
    assert (M : forall s e, co_stop s = true \/ e = CStop -> co_stop (fst (costep cf s e)) = true).
    { intros s e H. destruct e as [k c|k|ok|ok| |j| |]; cbn [costep]; try (destruct H as [H|H]; [|discriminate H]); try reflexivity; cbn [fst]; try exact H.
      - destruct (co_phase s); try exact H. destruct (take k (co_wait s)) as [[c w]|]; try exact H.
        assert (V : forall k c s, co_stop s = true -> co_stop (fst (deal_visitor cf k c s)) = true) by (intros; unfold deal_visitor, calc_next_id; destruct (filter _ _) as [|[j n] l]; assumption).
        destruct k; try (apply V; exact H); try exact H.
        + unfold deal_client, calc_next_id. destruct (cf_tunnel cf); [destruct (room <=? co_queue _)%nat|]; exact H.
        + destruct (cf_tls cf); [|unfold deal_center; destruct (cf_up cf)]; exact H.
      - destruct (co_phase s); try exact H. destruct ok; [|exact H]. unfold deal_center. destruct (cf_up cf); exact H.
      - destruct (co_phase s); exact H.
      - destruct (co_queue s); try exact H. destruct (co_phase s); exact H.
      - destruct (_ && _); exact H.
      - destruct (co_phase s); try exact H. destruct (co_stop s) eqn:Q; [cbn; exact Q|discriminate H]. }
    induction es as [|e es IH]; intros s H; cbn [corun]; [destruct H as [H|[]]; exact H|].
    assert (Q : co_stop (fst (costep cf s e)) = true \/ In CStop es) by (destruct H as [H|[H|H]]; [left; apply M; auto|left; apply M; auto|now right]).
    destruct (costep cf s e) as [s1 o1]. specialize (IH s1 Q). destruct (corun cf s1 es) as [s2 o2]. exact IH.
  Qed.
  (* ---- TLS ---- *)
  Lemma secured es s tr1 o tr2 c : cf_tls cf = true -> corun cf core0 es = (s, tr1 ++ o :: tr2) -> (exists j, o = XTunnel j c) \/ o = XRelay c -> In (XSecure c) tr1.
  Proof.
    intros T.
    assert (G : forall es, let r := corun cf core0 es in (forall c, co_phase (fst r) = CDial c -> In (XSecure c) (snd r)) /\
      forall tr1 o tr2 c, snd r = tr1 ++ o :: tr2 -> (exists j, o = XTunnel j c) \/ o = XRelay c -> In (XSecure c) tr1).
    { clear es s tr1 o tr2 c. induction es as [|e es IH] using rev_ind; cbv zeta in *.
      - split; [discriminate|]. intros tr1 o tr2 c H. destruct tr1; discriminate H.
      - rewrite corun_app. destruct (corun cf core0 es) as [s tr]. cbn [fst snd] in *. destruct IH as (A & B). cbn [corun]. 
        assert (S : (forall c, co_phase (fst (costep cf s e)) = CDial c -> In (XSecure c) (tr ++ snd (costep cf s e))) /\
          forall pre o post c, snd (costep cf s e) = pre ++ o :: post -> (exists j, o = XTunnel j c) \/ o = XRelay c -> In (XSecure c) (tr ++ pre)).
        { assert (KEEP : forall s' l, co_phase s' = co_phase s -> (forall c, co_phase s' = CDial c -> In (XSecure c) (tr ++ l))) by (intros s' l Q c P; apply in_app_iff; left; apply A; congruence).
          assert (OTHER : forall l, forallb (fun o => match o with XTunnel _ _ | XRelay _ => false | _ => true end) l = true -> forall pre o post c, l = pre ++ o :: post -> (exists j, o = XTunnel j c) \/ o = XRelay c -> In (XSecure c) (tr ++ pre)).
          { intros l F pre o post c E Q. exfalso. rewrite forallb_forall in F. specialize (F o). rewrite E in F. specialize (F (in_elt o pre post)). destruct Q as [(j & ->)| ->]; discriminate F. }
          destruct e as [k c|k|ok|ok| |j| |]; cbn [costep].
          - split; [apply KEEP; reflexivity|apply OTHER; reflexivity].
          - destruct (co_phase s) eqn:P; try (split; [apply KEEP; exact P|apply OTHER; reflexivity]). destruct (take k (co_wait s)) as [[c w]|]; [|split; [apply KEEP; exact P|apply OTHER; reflexivity]].
            assert (V : forall k c s, (forall c', co_phase (fst (deal_visitor cf k c s)) = CDial c' -> In (XSecure c') (tr ++ snd (deal_visitor cf k c s))) /\ forallb (fun o => match o with XTunnel _ _ | XRelay _ => false | _ => true end) (snd (deal_visitor cf k c s)) = true).
            { intros. unfold deal_visitor, calc_next_id. destruct (filter _ _) as [|[j n] l]; cbn; (split; [discriminate|reflexivity]). }
            destruct k; try (split; [apply V|apply OTHER; apply V]).
            + unfold deal_client, calc_next_id. destruct (cf_tunnel cf); [destruct (room <=? co_queue _)%nat|]; cbn [fst snd]; (split; [discriminate|apply OTHER; reflexivity]).
            + rewrite T. cbn [fst snd]. split; [discriminate|apply OTHER; reflexivity].
            + split; [apply KEEP; exact P|apply OTHER; reflexivity].
            + split; [apply KEEP; exact P|apply OTHER; reflexivity].
          - destruct (co_phase s) eqn:P; try (split; [apply KEEP; exact P|apply OTHER; reflexivity]). destruct ok; [|split; [discriminate|apply OTHER; reflexivity]].
            unfold deal_center. destruct (cf_up cf); cbn [fst snd].
            + split; [|apply OTHER; reflexivity]. intros c' Q. injection Q as <-. apply in_app_iff. right. now left.
            + split; [discriminate|]. intros pre o post c' E Q. destruct pre as [|x pre]; [cbn [app] in E; injection E as <- _; destruct Q as [(j & Q)|Q]; discriminate Q|]. cbn [app] in E. injection E as <- E. destruct pre as [|y pre]; [|destruct pre; discriminate E]. injection E as <- _. destruct Q as [(j & Q)|Q]; [|discriminate Q]. injection Q as _ <-. apply in_app_iff. right. now left.
          - destruct (co_phase s) eqn:P; try (split; [apply KEEP; exact P|apply OTHER; reflexivity]). cbn [fst snd]. split; [discriminate|]. intros pre o post c' E Q. destruct pre as [|x pre]; [|destruct pre; discriminate E]. injection E as E _. rewrite app_nil_r. destruct ok; [|destruct Q as [(j & Q)|Q]; subst o; discriminate Q]. destruct Q as [(j & Q)|Q]; subst o; [discriminate Q|]. injection Q as <-. apply A. reflexivity.
          - destruct (co_queue s); [split; [apply KEEP; reflexivity|apply OTHER; reflexivity]|]. destruct (co_phase s) eqn:P; (split; [|apply OTHER; reflexivity]); try (apply KEEP; cbn; congruence). discriminate.
          - destruct (_ && _); (split; [apply KEEP; reflexivity|apply OTHER; reflexivity]).
          - split; [apply KEEP; reflexivity|apply OTHER; reflexivity].
          - destruct (co_phase s) eqn:P; try (split; [apply KEEP; exact P|apply OTHER; reflexivity]). destruct (co_stop s); (split; [discriminate || (apply KEEP; exact P)|apply OTHER; reflexivity]). }
        destruct (costep cf s e) as [s1 l] eqn:E. cbn [fst snd] in *. rewrite app_nil_r. destruct S as (S1 & S2). split; [exact S1|].
        intros tr1 o tr2 c H Q. destruct (le_lt_dec (length tr) (length tr1)) as [L|L].
        + assert (X := cut_left _ _ _ _ _ H L).
          destruct X as (t & ->). rewrite <- app_assoc in H. apply app_inv_head in H. exact (S2 t o tr2 c H Q).
        + assert (X := cut_right _ _ _ _ _ H L).
          destruct X as (p & X). exact (B tr1 o p c X Q). }
    intros H Q. destruct (G es) as (_ & G2). rewrite H in G2. cbn [snd] in G2. exact (G2 _ _ _ _ eq_refl Q).
  Qed.
End R.
