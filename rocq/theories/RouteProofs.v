(* Lemmas about routing. *)
From Coq Require Import String.
From Verif Require Import Base Text TextOps ConfModel AddrModel AddrSpec AddrProofs RouteModel RouteSpec.
Open Scope N_scope.

(* ---- glob ------------------------------------------------------------------------- *)
Lemma glob_lit p s : no_char 42 p = true -> (glob p s <-> s = p).
Proof.
  revert s. induction p as [|c p IH]; intros s H.
  - split; [inversion 1; reflexivity|]. intros ->. constructor.
  - cbn in H. apply andb_true_iff in H. destruct H as [Hc H]. apply negb_true_iff, N.eqb_neq in Hc. split.
    + inversion 1; subst; [|congruence]. f_equal. apply IH; assumption.
    + intros ->. constructor; [exact Hc|]. apply IH; [exact H|reflexivity].
Qed.
Lemma glob_app a p s : no_char 42 a = true -> (glob (a ++ p) s <-> exists r, s = a ++ r /\ glob p r).
Proof.
  revert s. induction a as [|c a IH]; intros s H; cbn [app].
  - split; [intros G; exists s; auto|]. intros (r & -> & G). exact G.
  - cbn in H. apply andb_true_iff in H. destruct H as [Hc H]. apply negb_true_iff, N.eqb_neq in Hc. split.
    + inversion 1 as [|? ? s' Hc' G|]; subst; [|congruence]. apply IH in G; [|exact H]. destruct G as (r & -> & G). exists r. auto.
    + intros (r & -> & G). constructor; [exact Hc|]. apply IH; [exact H|]. exists r. auto.
Qed.
Lemma glob_star_iff p s : glob (42 :: p) s <-> exists t r, s = t ++ r /\ glob p r.
Proof.
  split.
  - inversion 1; subst; [congruence|]. eauto.
  - intros (t & r & -> & G). constructor. exact G.
Qed.
Lemma split_shape s : (no_char 42 s = true /\ split_on 42 s = [s]) \/
  exists a b, no_char 42 a = true /\ s = a ++ 42 :: b /\ split_on 42 s = a :: split_on 42 b.
Proof.
  destruct (no_char 42 s) eqn:E; [left; split; [reflexivity|apply split_on_one; exact E]|right].
  induction s as [|c s IH]; [discriminate|]. cbn in E. destruct (N.eqb_spec c 42) as [->|Hc].
  - exists [], s. split; [reflexivity|]. split; [reflexivity|]. apply (split_on_app 42 [] s). reflexivity.
  - cbn in E. destruct (IH E) as (a & b & Ha & -> & _). exists (c :: a), b.
    assert (Hn : no_char 42 (c :: a) = true) by (change (negb (c =? 42) && no_char 42 a = true); rewrite Ha; destruct (N.eqb_spec c 42); [congruence|reflexivity]).
    split; [exact Hn|]. split; [reflexivity|]. apply (split_on_app 42 (c :: a) b Hn).
Qed.
Lemma no_char_In c s : no_char c s = true <-> ~ In c s.
Proof.
  induction s as [|x s IH]; [cbn; tauto|]. change (negb (x =? c) && no_char c s = true <-> ~ In c (x :: s)). cbn [In].
  rewrite andb_true_iff, negb_true_iff, N.eqb_neq, IH. intuition.
Qed.
Lemma after_first_some p : forall s r, after_first p s = Some r ->
  exists t, s = t ++ p ++ r /\ forall t' r', s = t' ++ p ++ r' -> (length t <= length t')%nat.
Proof.
  induction s as [|x s IH]; intros r H; cbn [after_first] in H.
  - destruct (strip_prefix p []) as [q|] eqn:E; [|discriminate]. injection H as ->. apply strip_prefix_some in E.
    exists []. split; [exact E|]. intros. cbn. lia.
  - destruct (strip_prefix p (x :: s)) as [q|] eqn:E.
    + injection H as ->. apply strip_prefix_some in E. exists []. split; [exact E|]. intros. cbn. lia.
    + destruct (IH r H) as (t & -> & Hmin). exists (x :: t). split; [reflexivity|]. intros t' r' Ht.
      destruct t' as [|y t']; [exfalso; apply strip_prefix_none in E; apply E; exists r'; exact Ht|].
      cbn [app] in Ht. assert (t ++ p ++ r = t' ++ p ++ r') by congruence. specialize (Hmin t' r' H0). cbn. lia.
Qed.
Lemma after_first_none p : forall s, after_first p s = None -> ~ exists t r, s = t ++ p ++ r.
Proof.
  induction s as [|x s IH]; intros H (t & r & E); cbn [after_first] in H.
  - destruct (strip_prefix p []) eqn:E1; [discriminate|]. apply strip_prefix_none in E1.
    apply E1. destruct t; [exists r; exact E|discriminate].
  - destruct (strip_prefix p (x :: s)) eqn:E1; [discriminate|]. apply strip_prefix_none in E1. destruct t as [|y t].
    + apply E1. exists r. exact E.
    + apply (IH H). exists t, r. cbn in E. congruence.
Qed.
(* dropping less in front keeps a star pattern matched *)
Lemma glob_star_more p s t : glob (42 :: p) s -> glob (42 :: p) (t ++ s).
Proof. rewrite !glob_star_iff. intros (a & r & -> & G). exists (t ++ a), r. rewrite app_assoc. auto. Qed.
Lemma suffix_of {A} (t1 t2 r1 r2 : list A) : t1 ++ r1 = t2 ++ r2 -> (length t1 <= length t2)%nat -> exists m, r1 = m ++ r2.
Proof.
  revert t2. induction t1 as [|x t1 IH]; intros t2 E H.
  - exists t2. exact E.
  - destruct t2 as [|y t2]; [cbn in H; lia|]. cbn in E, H. injection E as -> E. apply (IH t2 E). lia.
Qed.
Lemma split_nonempty d s : split_on d s <> [].
Proof.
  unfold split_on. generalize (@nil N). induction s as [|c s IH]; intros acc; cbn; [discriminate|].
  destruct (c =? d); [discriminate|apply IH].
Qed.
(* the middle and last pieces, against a pattern after a star *)
Lemma match_rest_glob : forall n b oper, (length b <= n)%nat -> match_rest (split_on 42 b) oper = true <-> glob (42 :: b) oper.
Proof.
  induction n as [|n IH]; intros b oper Hn.
  { destruct b; [|cbn in Hn; lia]. rewrite glob_star_iff. change (split_on 42 []) with [@nil N]. cbn [match_rest]. split.
    - intros _. exists oper, []. rewrite app_nil_r. split; [reflexivity|constructor].
    - intros _. unfold strip_suffix. cbn. reflexivity. }
  rewrite glob_star_iff. destruct (split_shape b) as [[Hb ->]|(a & b' & Ha & -> & ->)].
  - cbn [match_rest]. destruct (strip_suffix b oper) as [q|] eqn:E.
    + apply strip_suffix_some in E. split; [|reflexivity]. intros _. exists q, b. split; [exact E|]. apply glob_lit; [exact Hb|reflexivity].
    + split; [discriminate|]. intros (t & r & -> & G). apply glob_lit in G; [|exact Hb]. subst r.
      apply strip_suffix_none in E. exfalso. apply E. exists t. reflexivity.
  - destruct (split_on 42 b') as [|v vs] eqn:Es; [exfalso; exact (split_nonempty _ _ Es)|].
    change (match_rest (a :: v :: vs) oper) with (match after_first a oper with Some r => match_rest (v :: vs) r | None => false end).
    destruct (after_first a oper) as [r|] eqn:E.
    + rewrite <- Es. rewrite IH by (rewrite app_length in Hn; cbn in Hn; lia).
      apply after_first_some in E. destruct E as (t & -> & Hmin). split.
      * intros G. exists t, (a ++ r). split; [reflexivity|]. apply glob_app; [exact Ha|]. exists r. auto.
      * intros (t' & q & Et & G). apply glob_app in G; [|exact Ha]. destruct G as (r' & -> & G).
        specialize (Hmin t' r' Et). rewrite !app_assoc in Et.
        destruct (suffix_of (t ++ a) (t' ++ a) r r' Et) as [m ->]; [rewrite !app_length; lia|]. apply glob_star_more. exact G.
    + split; [discriminate|]. intros (t & q & -> & G). apply glob_app in G; [|exact Ha]. destruct G as (r & -> & _).
      exfalso. apply (after_first_none _ _ E). exists t, r. reflexivity.
Qed.
Lemma is_match_star s p : In 42 p -> (is_match s p = true <-> glob p s).
Proof.
  intros Hs. unfold is_match. destruct (split_shape p) as [[Hb _]|(a & b & Ha & -> & ->)].
  { apply no_char_In in Hb. contradiction. }
  rewrite glob_app by exact Ha. destruct (strip_prefix a s) as [r|] eqn:E.
  - apply strip_prefix_some in E. subst s. rewrite (match_rest_glob (length b)) by lia. split.
    + intros G. exists r. auto.
    + intros (r' & E & G). apply app_inv_head in E. subst r'. exact G.
  - split; [discriminate|]. intros (r & -> & _). apply strip_prefix_none in E. exfalso. apply E. exists r. reflexivity.
Qed.
Lemma is_match_plain s p : ~ In 42 p -> (is_match s p = true <-> exists t, s = p ++ t).
Proof.
  intros Hs. apply no_char_In in Hs. unfold is_match. rewrite split_on_one by exact Hs.
  destruct (strip_prefix p s) as [r|] eqn:E.
  - apply strip_prefix_some in E. cbn. split; [intros _; exists r; exact E|reflexivity].
  - split; [discriminate|]. intros H. apply strip_prefix_none in E. contradiction.
Qed.

(* ---- rules ------------------------------------------------------------------------ *)
Section R.
  Context (regex : text -> option (text -> bool)) (parse_ip : text -> option ipaddr).
  Lemma In_dec42 p : In 42 p \/ ~ In 42 p.
  Proof. destruct (in_dec N.eq_dec 42 p); auto. Qed.
  Lemma path_rule_ok m path : path_rule regex m path = true <-> forall p, m_path m = Some p -> path_holds regex p path.
  Proof.
    unfold path_rule. destruct (m_path m) as [p|].
    2:{ split; [intros _ p; discriminate|reflexivity]. }
    assert (Hre : (match try_regex regex p with Some re => re path | None => false end) = true <->
                  (p <> [] /\ exists re, regex p = Some re /\ re path = true)).
    { unfold try_regex. destruct p as [|c p].
      - split; [discriminate|]. intros [H _]. congruence.
      - destruct (regex (c :: p)) as [re|].
        + split; [intros H; split; [discriminate|eauto]|]. intros [_ (re' & E & H)]. congruence.
        + split; [discriminate|]. intros [_ (re' & E & H)]. discriminate. }
    rewrite orb_true_iff, Hre. split.
    - intros H q Hq. injection Hq as <-. unfold path_holds. destruct H as [H|H]; [|auto].
      destruct (In_dec42 p) as [I|I]; [left; split; [exact I|apply is_match_star; assumption]|].
      right; left. split; [exact I|]. apply is_match_plain; assumption.
    - intros H. destruct (H p eq_refl) as [[I G]|[[I G]|G]].
      + left. apply is_match_star; assumption.
      + left. apply is_match_plain; assumption.
      + right. exact G.
  Qed.
  Lemma mem_text_ok x l : mem_text x l = true <-> In x l.
  Proof.
    unfold mem_text. rewrite existsb_exists. split.
    - intros (y & I & E). apply leqb_ok in E. subst. exact I.
    - intros I. exists x. split; [exact I|apply leqb_refl].
  Qed.
  Lemma listed_ok l a : set_contains l a = true <-> listed l a.
  Proof. unfold set_contains, listed. rewrite existsb_exists. tauto. Qed.
  Lemma loc_match_ok m path r : loc_match regex parse_ip m path r = true <-> holds regex parse_ip m path r.
  Proof.
    unfold loc_match, match_rule, holds.
    assert (Hp := path_rule_ok m path). destruct (path_rule regex m path); cbn [negb].
    2:{ split; [discriminate|]. intros (H & _). apply Hp in H. discriminate. }
    assert (Hm : method_rule m r = true <-> forall l, m_method m = Some l -> In (r_method r) l).
    { unfold method_rule. destruct (m_method m) as [l|]; [|split; [intros _ l; discriminate|reflexivity]].
      rewrite mem_text_ok. split; [intros H l' E; congruence|intros H; apply H; reflexivity]. }
    destruct (method_rule m r); cbn [negb].
    2:{ split; [discriminate|]. intros (_ & H & _). apply Hm in H. discriminate. }
    assert (Hs : scheme_rule m r = true <-> forall l, m_scheme m = Some l -> In (r_scheme r) l).
    { unfold scheme_rule. destruct (m_scheme m) as [l|]; [|split; [intros _ l; discriminate|reflexivity]].
      rewrite mem_text_ok. split; [intros H l' E; congruence|intros H; apply H; reflexivity]. }
    destruct (scheme_rule m r); cbn [negb].
    2:{ split; [discriminate|]. intros (_ & _ & H & _). apply Hs in H. discriminate. }
    assert (Hh : host_rule m r = true <-> forall h, m_host m = Some h -> r_host r = Some h).
    { unfold host_rule. destruct (m_host m) as [h|]; [|split; [intros _ l; discriminate|reflexivity]].
      destruct (r_host r) as [x|].
      - split; [intros H h' E; apply leqb_ok in H; congruence|]. intros H. specialize (H h eq_refl).
        assert (x = h) by congruence. subst. apply leqb_refl.
      - split; [discriminate|]. intros H. specialize (H h eq_refl). discriminate. }
    destruct (host_rule m r); cbn [negb].
    2:{ split; [discriminate|]. intros (_ & _ & _ & H & _). apply Hh in H. discriminate. }
    unfold client_rule. destruct (m_client m) as [l|].
    - destruct (r_ip r) as [t|]; [|split; [discriminate|]; intros (_ & _ & _ & _ & H); destruct (H l eq_refl) as (t & a & E & _); discriminate].
      destruct (parse_ip t) as [a|] eqn:Ea.
      + rewrite listed_ok. split.
        * intros H. repeat split; [apply Hp; reflexivity|apply Hm; reflexivity|apply Hs; reflexivity|apply Hh; reflexivity|].
          intros l' E. injection E as <-. exists t, a. auto.
        * intros (_ & _ & _ & _ & H). destruct (H l eq_refl) as (t' & a' & E & E' & L). assert (a' = a) by congruence. subst. exact L.
      + split; [discriminate|]. intros (_ & _ & _ & _ & H). destruct (H l eq_refl) as (t' & a' & E & E' & L).
        assert (t' = t) by congruence. subst. congruence.
    - split; [|reflexivity]. intros _. repeat split; [apply Hp; reflexivity|apply Hm; reflexivity|apply Hs; reflexivity|apply Hh; reflexivity|].
      intros l E. discriminate.
  Qed.
End R.

(* ---- the request loop ------------------------------------------------------------- *)
Section D.
  Context {W : Type} (regex : text -> option (text -> bool)) (parse_ip : text -> option ipaddr)
          (fmt : request -> text -> text)
          (limit : lreq -> text -> W -> limres * W)
          (serve : location -> request -> W -> res unit (N * bool) * W)
          (rehost : location -> request -> W -> option text)
          (closed : key -> W -> bool)
          (reuse : key -> request -> W -> option (res unit N) * W)
          (same_key : key -> key -> bool).
  Notation deal := (@deal W regex parse_ip fmt limit serve rehost closed reuse same_key).
  Notation handle := (@handle W serve rehost closed reuse same_key).
  Notation find_loc := (@find_loc regex parse_ip).
  Notation st := (@st W).

  Lemma holds_path m p q r : holds regex parse_ip m p (set_req_path r q) <-> holds regex parse_ip m p r.
  Proof using regex parse_ip. clear fmt limit serve rehost closed reuse same_key W. unfold holds, set_req_path. cbn. tauto. Qed.
  Lemma loc_match_path m p q r : loc_match regex parse_ip m p (set_req_path r q) = loc_match regex parse_ip m p r.
  Proof. reflexivity. Qed.

  Lemma find_from : forall ls k p r, 
    match find_loc k ls [] p r with
    | Some (i, l) => exists j, i = (k + j)%nat /\ first_holds regex parse_ip ls p r j l
    | None => forall l, In l ls -> ~ holds regex parse_ip (l_rule l) p r
    end.
  Proof using regex parse_ip. clear fmt limit serve rehost closed reuse same_key W.
    induction ls as [|l ls IH]; intros k p r; cbn [RouteModel.find_loc].
    - intros l [].
    - cbn [mem_nat existsb]. destruct (loc_match regex parse_ip (l_rule l) p r) eqn:E.
      + exists 0%nat. split; [lia|]. split; [reflexivity|]. split; [apply loc_match_ok; exact E|]. intros j l' H. lia.
      + assert (Hn : ~ holds regex parse_ip (l_rule l) p r) by (rewrite <- loc_match_ok; congruence).
        specialize (IH (S k) p r). destruct (find_loc (S k) ls [] p r) as [[i l0]|].
        * destruct IH as (j & -> & H1 & H2 & H3). exists (S j). split; [lia|]. split; [exact H1|]. split; [exact H2|].
          intros [|j'] l' Hj E'; [cbn in E'; congruence|]. apply (H3 j'); [lia|exact E'].
        * intros l' [<-|I]; [exact Hn|apply IH; exact I].
  Qed.
  Lemma find_first ls p q r : 
    match find_loc 0 ls [] p (set_req_path r q) with
    | Some (i, l) => first_holds regex parse_ip ls p r i l
    | None => forall l, In l ls -> ~ holds regex parse_ip (l_rule l) p r
    end.
  Proof using regex parse_ip. clear fmt limit serve rehost closed reuse same_key W.
    assert (H := find_from ls 0 p (set_req_path r q)). destruct (find_loc 0 ls [] p (set_req_path r q)) as [[i l]|].
    - destruct H as (j & -> & H1 & H2 & H3). cbn [Nat.add]. split; [exact H1|]. split; [apply holds_path in H2; exact H2|].
      intros j' l' Hj E Hh. apply (H3 j' l' Hj E). apply holds_path. exact Hh.
    - intros l I Hh. apply (H l I). apply holds_path. exact Hh.
  Qed.
  Lemma first_unique ls p r i l i' l' : first_holds regex parse_ip ls p r i l -> first_holds regex parse_ip ls p r i' l' -> i = i' /\ l = l'.
  Proof.
    intros (H1 & H2 & H3) (H1' & H2' & H3'). assert (i = i').
    { destruct (Nat.lt_trichotomy i i') as [L|[L|L]]; [|exact L|].
      - exfalso. exact (H3' i l L H1 H2).
      - exfalso. exact (H3 i' l' L H1' H2'). }
    subst. split; [reflexivity|congruence].
  Qed.

  (* what the address lists let through *)
  Definition gate_passed (l : location) (r : request) : Prop :=
    forall t, r_ip r = Some t -> (l_allow l <> None \/ l_deny l <> None) -> exists a, parse_ip t = Some a /\ permitted l a.
  Lemma ip_gate_ok l r : ip_gate parse_ip l r = Ok true -> gate_passed l r.
  Proof.
    unfold ip_gate, gate_passed. intros H t Ht Hs. rewrite Ht in H.
    assert (H' : match parse_ip t with
        | None => Err tt
        | Some a => if negb (match l_allow l with Some g => set_contains g a | None => true end) then Ok false
          else if match l_deny l with Some g => set_contains g a | None => false end then Ok false else Ok true
        end = @Ok unit bool true).
    { destruct (l_allow l), (l_deny l); try exact H. destruct Hs as [Hs|Hs]; elim Hs; reflexivity. }
    clear H. destruct (parse_ip t) as [a|]; [|discriminate]. exists a. split; [reflexivity|].
    destruct (l_allow l) as [ga|] eqn:Ea, (l_deny l) as [gd|] eqn:Ed; unfold permitted; rewrite Ea, Ed; cbn [negb] in H'.
    - destruct (set_contains ga a) eqn:Ca; cbn [negb] in H'; [|discriminate]. destruct (set_contains gd a) eqn:Cd; [discriminate|].
      split; intros g E; injection E as <-; rewrite <- listed_ok; [exact Ca|congruence].
    - destruct (set_contains ga a) eqn:Ca; cbn [negb] in H'; [|discriminate].
      split; intros g E; [injection E as <-; rewrite <- listed_ok; exact Ca|discriminate].
    - destruct (set_contains gd a) eqn:Cd; [discriminate|].
      split; intros g E; [discriminate|injection E as <-; rewrite <- listed_ok; congruence].
    - split; intros g E; discriminate.
  Qed.
  Lemma ip_gate_refuse l r t a : r_ip r = Some t -> parse_ip t = Some a -> ~ permitted l a -> ip_gate parse_ip l r = Ok false.
  Proof.
    intros Ht Ha Hp. unfold ip_gate. rewrite Ht, Ha. unfold permitted in Hp.
    destruct (l_allow l) as [ga|], (l_deny l) as [gd|]; cbn [negb].
    - destruct (set_contains ga a) eqn:Ca; [|reflexivity]. destruct (set_contains gd a) eqn:Cd; [reflexivity|].
      exfalso. apply Hp. split; intros g E; injection E as <-; rewrite <- listed_ok; [exact Ca|congruence].
    - destruct (set_contains ga a) eqn:Ca; [|reflexivity].
      exfalso. apply Hp. split; intros g E; [injection E as <-; rewrite <- listed_ok; exact Ca|discriminate].
    - destruct (set_contains gd a) eqn:Cd; [reflexivity|].
      exfalso. apply Hp. split; intros g E; [discriminate|injection E as <-; rewrite <- listed_ok; congruence].
    - exfalso. apply Hp. split; intros g E; discriminate.
  Qed.
  Lemma ip_gate_no_panic l r : ip_gate parse_ip l r <> Panic.
  Proof.
    unfold ip_gate. destruct (l_allow l), (l_deny l); try discriminate; destruct (r_ip r) as [t|]; try discriminate;
      destruct (parse_ip t) as [a|]; try discriminate; destruct (negb _); try discriminate; destruct (set_contains _ _); discriminate.
  Qed.

  Lemma do_limit_st l r s x s' : do_limit limit l r s = (x, s') -> exists w, s' = with_world w s.
  Proof.
    unfold do_limit. destruct (l_limit l) as [lr|], (r_ip r) as [ip|]; try (intros E; injection E as <- <-; exists (t_world s); destruct s; reflexivity).
    destruct (limit lr ip (t_world s)) as [y w]. intros E. injection E as <- <-. exists w. reflexivity.
  Qed.
  (* a world the rate limiter may leave behind *)
  Definition after_limit (w w' : W) : Prop := w' = w \/ exists lr ip x, limit lr ip w = (x, w').
  Lemma do_limit_world l r s x s' : do_limit limit l r s = (x, s') -> exists w, s' = with_world w s /\ after_limit (t_world s) w.
  Proof.
    unfold do_limit, after_limit. destruct (l_limit l) as [lr|], (r_ip r) as [ip|]; try (intros E; injection E as <- <-; exists (t_world s); split; [destruct s; reflexivity|left; reflexivity]).
    destruct (limit lr ip (t_world s)) as [y w] eqn:El. intros E. injection E as <- <-. exists w. split; [reflexivity|]. right. exists lr, ip, y. exact El.
  Qed.
  Lemma mem_nat_ok n l : mem_nat n l = true <-> In n l.
  Proof.
    unfold mem_nat. rewrite existsb_exists. split.
    - intros (x & I & E). apply Nat.eqb_eq in E. subst. exact I.
    - intros I. exists n. split; [exact I|apply Nat.eqb_refl].
  Qed.

  Notation expansion := (expansion fmt).
  (* a predicate kept by every step is kept by a whole request *)
  Section Inv.
    Context (locs : list location) (r : request) (P : st -> Prop).
    Context (Pcall : forall s p, P s -> expansion locs (set_host r (t_host s)) p -> P (with_path p (with_deals [] s)))
            (Pworld : forall s w, P s -> after_limit (t_world s) w -> P (with_world w s))
            (Ptry : forall s i l, P s -> first_holds regex parse_ip locs (t_path s) (set_host r (t_host s)) i l -> gate_passed l r -> ~ In i (t_tried s) ->
                    P (event (EvTry i) (with_tried (i :: t_tried s) s)))
            (Phandle : forall s i l, P s -> first_holds regex parse_ip locs (t_path s) (set_host r (t_host s)) i l -> gate_passed l r -> P (fst (handle i l r s))).
    Lemma try_all_inv rec ori fail :
      (forall s s' a, P s -> t_deals s = [] -> rec s = Some (s', a) -> P s') ->
      forall vals, (forall v h, In v vals -> expansion locs (set_host r h) (fmt (set_req_path (set_host r h) ori) v)) ->
      forall s s' a, P s -> @RouteModel.try_all W fmt rec r ori fail vals s = Some (s', a) -> P s'.
    Proof.
      intros Hrec. induction vals as [|v vs IH]; intros Hv s s' a Hs H; cbn [try_all] in H.
      - injection H as <- _. exact Hs.
      - destruct (rec _) as [[s1 [b|e|]]|] eqn:E; try discriminate.
        + assert (P s1) by (eapply Hrec; [| |exact E]; [apply Pcall; [exact Hs|apply Hv; left; reflexivity]|reflexivity]).
          destruct (is_error (a_status b)); [eapply IH; [intros u h Iu; apply Hv; right; exact Iu| |exact H]; assumption|]. injection H as <- _. assumption.
        + eapply IH; [intros u h Iu; apply Hv; right; exact Iu| |exact H]. eapply Hrec; [| |exact E]; [apply Pcall; [exact Hs|apply Hv; left; reflexivity]|reflexivity].
        + injection H as <- _. eapply Hrec; [| |exact E]; [apply Pcall; [exact Hs|apply Hv; left; reflexivity]|reflexivity].
    Qed.
    Lemma deal_inv : forall f s s' a, P s -> t_deals s = [] -> deal f locs r s = Some (s', a) -> P s'.
    Proof.
      induction f as [|f IH]; intros s s' a Hs Hd H; [discriminate|]. cbn [RouteModel.deal] in H. rewrite Hd in H.
      assert (Hf := find_first locs (t_path s) (t_path s) (set_host r (t_host s))).
      destruct (find_loc 0 locs [] (t_path s) (set_req_path (set_host r (t_host s)) (t_path s))) as [[i l]|].
      2:{ injection H as <- _. exact Hs. }
      destruct (do_limit limit l r s) as [x s1] eqn:El. destruct (do_limit_world _ _ _ _ _ El) as (w & -> & Hw).
      assert (P (with_world w s)) by (apply Pworld; [exact Hs|exact Hw]).
      destruct x; try (injection H as <- _; assumption).
      destruct (ip_gate parse_ip l r) as [[]| |] eqn:Eg; try (injection H as <- _; assumption).
      apply ip_gate_ok in Eg.
      assert (Hh : forall q, Some q = Some (s', a) -> q = handle i l r (with_world w s) -> P s').
      { intros q Eq Eq'. assert (s' = fst (handle i l r (with_world w s))) by (rewrite <- Eq'; injection Eq as ->; reflexivity).
        subst s'. apply Phandle; assumption. }
      destruct (l_try l) as [[vals fail]|] eqn:Et; [|eapply Hh; [exact H|reflexivity]].
      destruct (mem_nat i (t_tried (with_world w s))) eqn:Em; [eapply Hh; [exact H|reflexivity]|].
      assert (H0' : P (event (EvTry i) (with_tried (i :: t_tried (with_world w s)) (with_world w s)))).
      { apply (Ptry _ i l); [exact H0|exact Hf|exact Eg|]. rewrite <- mem_nat_ok. congruence. }
      eapply try_all_inv; [| |exact H0'|exact H].
      + intros s2 s3 b H2 Hd2 E2. exact (IH s2 s3 b H2 Hd2 E2).
      + intros v h Iv. exists l, vals, fail, v, (t_path (with_world w s)).
        split; [eapply nth_error_In; apply Hf|]. auto.
    Qed.
  End Inv.

  (* ---- what one handling does -------------------------------------------------- *)
  Lemma handle_st i l r s : 
    t_tried (fst (handle i l r s)) = t_tried s /\
    (t_trace (fst (handle i l r s)) = t_trace s \/ t_trace (fst (handle i l r s)) = t_trace s ++ [EvServe i (t_path s)] \/
     t_trace (fst (handle i l r s)) = t_trace s ++ [EvReuse i (t_path s)]).
  Proof.
    unfold RouteModel.handle. cbn [t_cache with_deals t_world with_cache t_path t_host].
    destruct (cached same_key (loc_key l) (t_cache s)).
    - destruct (closed (loc_key l) (t_world s)); [cbn; auto|].
      destruct (reuse (loc_key l) (set_req_path (set_host r (t_host s)) (t_path s)) (t_world s)) as [[[c|e|]|] w]; cbn; auto.
    - destruct (serve l (set_req_path (set_host r (t_host s)) (t_path s)) (t_world s)) as [[[c []]|e|] w]; cbn; auto.
  Qed.

  (* every use of a handler or connection is by the first location whose rule
     holds of the path at that moment, for an address it lets through *)
  Definition use_ok (locs : list location) (r : request) (e : ev) : Prop :=
    match e with
    | EvTry _ => True
    | EvServe i p | EvReuse i p => exists h l, first_holds regex parse_ip locs p (set_host r h) i l /\ gate_passed l r
    end.
  Lemma deal_uses locs r f s s' a : Forall (use_ok locs r) (t_trace s) -> t_deals s = [] -> deal f locs r s = Some (s', a) ->
    Forall (use_ok locs r) (t_trace s').
  Proof.
    apply (deal_inv locs r (fun s => Forall (use_ok locs r) (t_trace s))); clear.
    - intros s p H _. exact H.
    - intros s w H _. exact H.
    - intros s i l H _ _ _. cbn. apply Forall_app. split; [exact H|]. repeat constructor.
    - intros s i l H F G. destruct (handle_st i l r s) as [_ [E|[E|E]]]; rewrite E; [exact H| |];
        apply Forall_app; (split; [exact H|]); repeat constructor; exists (t_host s), l; auto.
  Qed.
  Notation leaves_host := (leaves_host rehost).
  (* all the locations that have handled the request so far do *)
  Definition left_alone (locs : list location) (t : list ev) : Prop :=
    forall j q l, In (EvServe j q) t -> nth_error locs j = Some l -> leaves_host l.
  Definition route_ok (locs : list location) (r : request) (t : list ev) : Prop :=
    forall pre e post i p, t = pre ++ e :: post -> e = EvServe i p \/ e = EvReuse i p -> left_alone locs pre ->
      (exists l, first_holds regex parse_ip locs p r i l) /\ (p = r_path r \/ expansion locs r p).
  Lemma set_host_same r : set_host r (r_host r) = r.
  Proof. destruct r. reflexivity. Qed.
  Lemma snoc_split (A : Type) (t : list A) x pre e post : t ++ [x] = pre ++ e :: post ->
    (pre = t /\ e = x /\ post = []) \/ exists post', post = post' ++ [x] /\ t = pre ++ e :: post'.
  Proof.
    destruct post as [|y post] using rev_ind.
    - intro H. apply app_inj_tail in H as [-> ->]. auto.
    - rewrite app_comm_cons, app_assoc. intro H. apply app_inj_tail in H as [-> ->]. right. exists post. auto.
  Qed.
  Lemma route_snoc locs r t x : route_ok locs r t ->
    (left_alone locs t -> forall i p, x = EvServe i p \/ x = EvReuse i p -> (exists l, first_holds regex parse_ip locs p r i l) /\ (p = r_path r \/ expansion locs r p)) ->
    route_ok locs r (t ++ [x]).
  Proof.
    intros H G pre e post i p E K A. apply snoc_split in E as [(-> & -> & ->)|(post' & -> & E)]; [exact (G A i p K)|exact (H _ _ _ _ _ E K A)].
  Qed.
  Lemma left_alone_snoc locs t x : left_alone locs (t ++ [x]) -> left_alone locs t.
  Proof. intros H j q l I. apply (H j q l). apply in_app_iff. left. exact I. Qed.
  Lemma deal_route locs r f s s' a : t_trace s = [] -> t_path s = r_path r -> t_host s = r_host r -> t_deals s = [] ->
    deal f locs r s = Some (s', a) -> route_ok locs r (t_trace s').
  Proof.
    intros H1 H2 H3 Hd H.
    assert (G : route_ok locs r (t_trace s') /\ (left_alone locs (t_trace s') -> t_host s' = r_host r /\ (t_path s' = r_path r \/ expansion locs r (t_path s')))).
    2:{ apply G. }
    revert H. apply (deal_inv locs r (fun s => route_ok locs r (t_trace s) /\ (left_alone locs (t_trace s) -> t_host s = r_host r /\ (t_path s = r_path r \/ expansion locs r (t_path s))))); [| | | | |exact Hd].
    5:{ rewrite H1, H2, H3. split; [|auto]. intros pre e post i p E. destruct pre; discriminate. }
    all: clear.
    - intros s p [H K] He. split; [exact H|]. intro A. destruct (K A) as [Kh _]. split; [exact Kh|]. right. rewrite Kh, set_host_same in He. exact He.
    - intros s w H _. exact H.
    - intros s i l [H K] _ _ _. split.
      + cbn. apply route_snoc; [exact H|]. intros _ j p [X|X]; discriminate.
      + cbn. intro A. apply K. eapply left_alone_snoc. exact A.
    - intros s i l [H K] F G. 
      assert (U : left_alone locs (t_trace s) -> forall e i0 p, e = EvServe i (t_path s) \/ e = EvReuse i (t_path s) -> e = EvServe i0 p \/ e = EvReuse i0 p ->
                  (exists l, first_holds regex parse_ip locs p r i0 l) /\ (p = r_path r \/ expansion locs r p)).
      { intros A e i0 p E1 E2. destruct (K A) as [Kh Kp]. rewrite Kh, set_host_same in F.
        destruct E1 as [->| ->], E2 as [E2|E2]; try discriminate E2; injection E2 as <- <-; (split; [exists l; exact F|exact Kp]). }
      assert (NE : nth_error locs i = Some l) by apply F.
      assert (V : forall h, h = rehost l (set_req_path (set_host r (t_host s)) (t_path s)) (t_world s) ->
                  left_alone locs (t_trace s ++ [EvServe i (t_path s)]) -> h = r_host r /\ (t_path s = r_path r \/ expansion locs r (t_path s))).
      { intros h -> A. destruct (K (left_alone_snoc _ _ _ A)) as [Kh Kp]. split; [|exact Kp].
        rewrite (A i (t_path s) l); [exact Kh|apply in_app_iff; right; left; reflexivity|exact NE]. }
      unfold RouteModel.handle. cbn [t_cache with_deals t_world with_cache t_path t_host].
      destruct (cached same_key (loc_key l) (t_cache s)).
      + destruct (closed (loc_key l) (t_world s)); [exact (conj H K)|].
        destruct (reuse (loc_key l) (set_req_path (set_host r (t_host s)) (t_path s)) (t_world s)) as [[[c|e|]|] w]; cbn;
          (split; [apply route_snoc; [exact H|intros A i0 p; apply (U A); auto]|intro A; apply K; eapply left_alone_snoc; exact A]).
      + destruct (serve l (set_req_path (set_host r (t_host s)) (t_path s)) (t_world s)) as [[[c []]|e|] w]; cbn;
          (split; [apply route_snoc; [exact H|intros A i0 p; apply (U A); auto]|exact (V _ eq_refl)]).
  Qed.

  (* tries *)
  Fixpoint tries (t : list ev) : list nat := match t with [] => [] | EvTry i :: t' => i :: tries t' | _ :: t' => tries t' end.
  Lemma tries_app a b : tries (a ++ b) = tries a ++ tries b.
  Proof. induction a as [|[i|i p|i p] a IH]; cbn; [reflexivity| | |]; rewrite ?IH; reflexivity. Qed.
  Lemma first_lt locs p r i l : first_holds regex parse_ip locs p r i l -> (i < length locs)%nat.
  Proof. intros (H & _). apply nth_error_Some. congruence. Qed.
  Definition tried_ok (locs : list location) (s : st) : Prop :=
    NoDup (t_tried s) /\ Forall (fun i => (i < length locs)%nat) (t_tried s).
  Lemma deal_tries locs r f s s' a : tried_ok locs s -> tries (t_trace s) = rev (t_tried s) -> t_deals s = [] ->
    deal f locs r s = Some (s', a) ->
    tried_ok locs s' /\ tries (t_trace s') = rev (t_tried s').
  Proof.
    intros H1 H2 Hd H. revert H. apply (deal_inv locs r (fun s => tried_ok locs s /\ tries (t_trace s) = rev (t_tried s))); [| | | |auto|exact Hd]; clear.
    - intros s p H _. exact H.
    - intros s w H _. exact H.
    - intros s i l [[H1 H2] H3] F _ N. split; [split|].
      + cbn. constructor; assumption.
      + cbn. constructor; [eapply first_lt; exact F|exact H2].
      + cbn. rewrite tries_app, H3. reflexivity.
    - intros s i l [H1 H3] F G. destruct (handle_st i l r s) as [E1 E2]. unfold tried_ok. rewrite E1. split; [exact H1|].
      destruct E2 as [E|[E|E]]; rewrite E, ?tries_app; cbn; rewrite ?app_nil_r; exact H3.
  Qed.
  Lemma tried_le locs s : tried_ok locs s -> (length (t_tried s) <= length locs)%nat.
  Proof.
    intros [H1 H2]. rewrite <- (seq_length (length locs) 0). apply NoDup_incl_length; [exact H1|].
    intros i I. rewrite Forall_forall in H2. specialize (H2 i I). apply in_seq. lia.
  Qed.
  (* tried locations only accumulate *)
  Lemma deal_tried_le locs r f s s' a n : (n <= length (t_tried s))%nat -> t_deals s = [] -> deal f locs r s = Some (s', a) -> (n <= length (t_tried s'))%nat.
  Proof.
    intros H1 Hd H. revert H. apply (deal_inv locs r (fun s => (n <= length (t_tried s))%nat)); [| | | |auto|exact Hd]; clear.
    - intros s p H _. exact H.
    - intros s w H _. exact H.
    - intros s i l H F _ N. cbn. lia.
    - intros s i l H F G. destruct (handle_st i l r s) as [E1 E2]. rewrite E1. exact H.
  Qed.
  Lemma deal_tried_ok locs r f s s' a : tried_ok locs s -> t_deals s = [] -> deal f locs r s = Some (s', a) -> tried_ok locs s'.
  Proof.
    intros H1 Hd H. revert H. apply (deal_inv locs r (fun s => tried_ok locs s)); [| | | |auto|exact Hd]; clear.
    - intros s p H _. exact H.
    - intros s w H _. exact H.
    - intros s i l [H1 H2] F _ N. split; cbn.
      + constructor; assumption.
      + constructor; [eapply first_lt; exact F|exact H2].
    - intros s i l H1 F G. destruct (handle_st i l r s) as [E1 E2]. unfold tried_ok. rewrite E1. exact H1.
  Qed.
  Lemma deal_some locs r : forall f s, tried_ok locs s -> t_deals s = [] -> (length locs < f + length (t_tried s))%nat ->
    deal f locs r s <> None.
  Proof.
    induction f as [|f IH]; intros s Ht Hd Hf.
    { apply tried_le in Ht. lia. }
    cbn [RouteModel.deal]. rewrite Hd. assert (Hfi := find_first locs (t_path s) (t_path s) (set_host r (t_host s))).
    destruct (find_loc 0 locs [] (t_path s) (set_req_path (set_host r (t_host s)) (t_path s))) as [[i l]|]; [|discriminate].
    destruct (do_limit limit l r s) as [x s1] eqn:El. destruct (do_limit_st _ _ _ _ _ El) as [w ->].
    destruct x; try discriminate. destruct (ip_gate parse_ip l r) as [[]| |]; try discriminate.
    destruct (l_try l) as [[vals fail]|]; [|discriminate].
    destruct (mem_nat i (t_tried (with_world w s))) eqn:Em; [discriminate|].
    assert (Hni : ~ In i (t_tried s)) by (change (mem_nat i (t_tried s) = false) in Em; rewrite <- mem_nat_ok; congruence).
    assert (G : forall vals s2, tried_ok locs s2 -> (S (length (t_tried s)) <= length (t_tried s2))%nat ->
               try_all fmt (deal f locs r) r (t_path (with_world w s)) fail vals s2 <> None).
    { clear vals. induction vals as [|v vs IHv]; intros s2 H2 L2; cbn [try_all]; [discriminate|].
      set (s3 := with_path _ _).
      assert (H3 : tried_ok locs s3) by exact H2.
      assert (L3 : (S (length (t_tried s)) <= length (t_tried s3))%nat) by exact L2.
      assert (N3 : deal f locs r s3 <> None) by (apply IH; [exact H3|reflexivity|lia]).
      destruct (deal f locs r s3) as [[s4 b]|] eqn:E4; [|congruence].
      assert (H4 := deal_tried_ok locs r f s3 s4 b H3 eq_refl E4).
      assert (L4 := deal_tried_le locs r f s3 s4 b _ L3 eq_refl E4).
      destruct b as [b|e|]; [destruct (is_error (a_status b)); [apply IHv; assumption|discriminate]|apply IHv; assumption|discriminate]. }
    apply G.
    - destruct Ht as [H1 H2]. split; cbn; [constructor; assumption|]. constructor; [eapply first_lt; exact Hfi|exact H2].
    - cbn. lia.
  Qed.
  Lemma deal_more locs r : forall f s x, deal f locs r s = Some x -> deal (S f) locs r s = Some x.
  Proof.
    induction f as [|f IH]; intros s x H; [discriminate|].
    remember (S f) as f1 eqn:Ef. cbn [RouteModel.deal]. rewrite Ef in H. cbn [RouteModel.deal] in H.
    destruct (find_loc 0 locs (t_deals s) (t_path s) (set_req_path (set_host r (t_host s)) (t_path s))) as [[i l]|]; [|exact H].
    destruct (do_limit limit l r s) as [y s1]. destruct y; try exact H. destruct (ip_gate parse_ip l r) as [[]| |]; try exact H.
    destruct (l_try l) as [[vals fail]|]; [|exact H]. destruct (mem_nat i (t_tried s1)); [exact H|].
    revert H. generalize (event (EvTry i) (with_tried (i :: t_tried s1) s1)). generalize (t_path s1). intros ori s2 H.
    revert s2 H. induction vals as [|v vs IHv]; intros s2 H; cbn [try_all] in *; [exact H|].
    destruct (deal f locs r _) as [z|] eqn:E; [|discriminate]. apply IH in E. rewrite E.
    destruct z as [s4 [b|e|]]; [destruct (is_error (a_status b))| |]; try exact H; apply IHv; exact H.
  Qed.
  Lemma deal_more' locs r f g s x : (f <= g)%nat -> deal f locs r s = Some x -> deal g locs r s = Some x.
  Proof. induction 1 as [|g L IH]; intros H; [exact H|]. apply deal_more. auto. Qed.

  (* an answer is ours, or it came from the handler used last *)
  Definition answer_ok (s : st) (a : res unit answer) : Prop :=
    match a with
    | Ok (Answer _ Own) => True
    | Ok (Answer _ (FromServe i)) => exists p t, t_trace s = t ++ [EvServe i p]
    | Ok (Answer _ (FromReuse i)) => exists p t, t_trace s = t ++ [EvReuse i p]
    | _ => True
    end.
  Lemma handle_answer i l r s : answer_ok (fst (handle i l r s)) (snd (handle i l r s)).
  Proof.
    unfold RouteModel.handle. cbn [t_cache with_deals t_world with_cache t_path t_host].
    destruct (cached same_key (loc_key l) (t_cache s)).
    - destruct (closed (loc_key l) (t_world s)); [cbn; auto|].
      destruct (reuse (loc_key l) (set_req_path (set_host r (t_host s)) (t_path s)) (t_world s)) as [[[c|e|]|] w]; cbn; eauto.
    - destruct (serve l (set_req_path (set_host r (t_host s)) (t_path s)) (t_world s)) as [[[c []]|e|] w]; cbn; eauto.
  Qed.
  Lemma deal_answer locs r : forall f s s' a, deal f locs r s = Some (s', a) -> answer_ok s' a.
  Proof.
    induction f as [|f IH]; intros s s' a H; [discriminate|]. cbn [RouteModel.deal] in H.
    destruct (find_loc 0 locs (t_deals s) (t_path s) (set_req_path (set_host r (t_host s)) (t_path s))) as [[i l]|]; [|injection H as <- <-; exact I].
    destruct (do_limit limit l r s) as [y s1]. destruct y; try (injection H as <- <-; exact I).
    assert (G : Some (handle i l r s1) = Some (s', a) -> answer_ok s' a).
    { intros E. assert (Hh := handle_answer i l r s1). assert (handle i l r s1 = (s', a)) by congruence. rewrite H0 in Hh. exact Hh. }
    destruct (ip_gate parse_ip l r) as [[]| |]; try (injection H as <- <-; exact I).
    destruct (l_try l) as [[vals fail]|]; [|exact (G H)]. destruct (mem_nat i (t_tried s1)); [exact (G H)|]. clear G.
    revert H. generalize (event (EvTry i) (with_tried (i :: t_tried s1) s1)). generalize (t_path s1). intros ori s2 H.
    revert s2 H. induction vals as [|v vs IHv]; intros s2 H; cbn [try_all] in *; [injection H as <- <-; exact I|].
    destruct (deal f locs r _) as [[s4 [b|e|]]|] eqn:E; try discriminate.
    - destruct (is_error (a_status b)); [eapply IHv; exact H|]. injection H as <- <-. eapply IH. exact E.
    - eapply IHv. exact H.
    - injection H as <- <-. exact I.
  Qed.

  (* ---- the server ---------------------------------------------------------------- *)
  Lemma pick_none servers host : pick_server servers host = None <-> servers = [].
  Proof.
    split; [|intros ->; reflexivity]. induction servers as [|s [|s' ss] IH]; [reflexivity|discriminate|].
    cbn [pick_server]. destruct (leqb (s_up_name s) host || _); [discriminate|]. intros H. specialize (IH H). discriminate.
  Qed.
  Lemma pick_selected : forall servers host sv, pick_server servers host = Some sv -> selected servers host sv.
  Proof.
    induction servers as [|s ss IH]; intros host sv H; [discriminate|]. destruct ss as [|s' ss].
    - cbn in H. injection H as <-. exists [], []. split; [reflexivity|]. split; [intros x []|auto].
    - change (pick_server (s :: s' :: ss) host) with
        (if leqb (s_up_name s) host || match host with [] => true | _ => false end then Some s else pick_server (s' :: ss) host) in H.
      destruct (leqb (s_up_name s) host) eqn:E.
      + cbn in H. injection H as <-. exists [], (s' :: ss). split; [reflexivity|]. split; [intros x []|]. left. apply leqb_ok. exact E.
      + destruct host as [|c host].
        * cbn in H. injection H as <-. exists [], (s' :: ss). split; [reflexivity|]. split; [intros x []|]. auto.
        * cbn [orb] in H. destruct (IH _ _ H) as (pre & post & -> & Hpre & Hsel). exists (s :: pre), post.
          split; [reflexivity|]. split; [|exact Hsel]. intros x [<-|I]; [|apply Hpre; exact I].
          split; [|discriminate]. intros E'. rewrite E', leqb_refl in E. discriminate.
  Qed.
  Lemma selected_unique servers host a b : selected servers host a -> selected servers host b -> a = b.
  Proof.
    intros (p1 & q1 & -> & H1 & S1) (p2 & q2 & E & H2 & S2).
    revert p2 E H2. induction p1 as [|x p1 IH]; intros p2 E H2.
    - destruct p2 as [|y p2]; cbn in E; [congruence|].
      assert (a = y) by congruence. subst y. exfalso. destruct (H2 a (or_introl eq_refl)) as [Ha Hb].
      destruct S1 as [S1|[S1|S1]]; try congruence. subst q1. assert (H : [] = p2 ++ b :: q2) by congruence.
      symmetry in H. apply app_eq_nil in H. destruct H. discriminate.
    - destruct p2 as [|y p2]; cbn in E.
      + assert (x = b) by congruence. subst x. exfalso. destruct (H1 b (or_introl eq_refl)) as [Ha Hb].
        destruct S2 as [S2|[S2|S2]]; try congruence. subst q2. assert (H : p1 ++ a :: q1 = []) by congruence.
        apply app_eq_nil in H. destruct H. discriminate.
      + assert (E' : p1 ++ a :: q1 = p2 ++ b :: q2) by congruence. apply (IH (fun z I => H1 z (or_intror I)) p2 E' (fun z I => H2 z (or_intror I))).
  Qed.
  Lemma try_all_result rec r ori fail : forall vals s s' a, @RouteModel.try_all W fmt rec r ori fail vals s = Some (s', a) ->
    a = Panic \/ a = Ok (Answer fail Own) \/ exists x, a = Ok x /\ is_error (a_status x) = false.
  Proof.
    induction vals as [|v vs IH]; intros s s' a H; cbn [try_all] in H.
    - injection H as <- <-. right. left. reflexivity.
    - destruct (rec _) as [[s4 [b|e|]]|]; try discriminate.
      + destruct (is_error (a_status b)) eqn:E; [exact (IH _ _ _ H)|]. injection H as <- <-. right. right. exists b. split; [reflexivity|exact E].
      + exact (IH _ _ _ H).
      + injection H as <- <-. left. reflexivity.
  Qed.
  Lemma find_holds ls p r : match find (fun l => loc_match regex parse_ip (l_rule l) p r) ls with
    | Some l => exists i, first_holds regex parse_ip ls p r i l
    | None => forall l, In l ls -> ~ holds regex parse_ip (l_rule l) p r
    end.
  Proof using regex parse_ip. clear fmt limit serve rehost closed reuse same_key W.
    induction ls as [|l ls IH]; cbn [find]; [intros l []|]. destruct (loc_match regex parse_ip (l_rule l) p r) eqn:E.
    - exists 0%nat. split; [reflexivity|]. split; [apply loc_match_ok; exact E|]. intros j l' H. lia.
    - assert (Hn : ~ holds regex parse_ip (l_rule l) p r) by (rewrite <- loc_match_ok; congruence).
      destruct (find _ ls) as [l0|].
      + destruct IH as (i & H1 & H2 & H3). exists (S i). split; [exact H1|]. split; [exact H2|].
        intros [|j] l' Hj E'; [cbn in E'; congruence|]. apply (H3 j); [lia|exact E'].
      + intros l' [<-|I]; [exact Hn|apply IH; exact I].
  Qed.
  Lemma ws_location_finds r : forall pre sv post i l,
    (s_up_name sv = host_of r \/ host_of r = [] \/ post = []) -> first_holds regex parse_ip (s_locs sv) (r_path r) r i l ->
    (forall x l', In x pre -> s_up_name x = host_of r \/ host_of r = [] -> In l' (s_locs x) -> ~ holds regex parse_ip (l_rule l') (r_path r) r) ->
    ws_location regex parse_ip (pre ++ sv :: post) r = Some l.
  Proof using regex parse_ip. clear fmt limit serve rehost closed reuse same_key W.
    induction pre as [|s pre IH]; intros sv post i l A F N.
    - cbn [app ws_location]. pose proof (find_holds (s_locs sv) (r_path r) r) as G.
      replace (leqb (s_up_name sv) (host_of r) || match host_of r with [] => true | _ => false end || match post with [] => true | _ => false end) with true.
      + destruct (find (fun l => loc_match regex parse_ip (l_rule l) (r_path r) r) (s_locs sv)) as [l0|].
        * destruct G as (j & G). destruct (first_unique _ _ _ _ _ _ _ F G) as [_ <-]. reflexivity.
        * destruct F as (F1 & F2 & _). destruct (G l); [eapply nth_error_In; exact F1|exact F2].
      + destruct A as [A|[A|A]]; [rewrite A, leqb_refl; reflexivity|rewrite A, orb_true_r; reflexivity|rewrite A, orb_true_r; reflexivity].
    - cbn [app ws_location]. assert (E := IH sv post i l A F (fun x l' I => N x l' (or_intror I))).
      destruct (pre ++ sv :: post) as [|y q] eqn:Q; [destruct pre; discriminate|]. rewrite orb_false_r, E.
      destruct (leqb (s_up_name s) (host_of r) || match host_of r with [] => true | _ => false end) eqn:B; [|reflexivity].
      pose proof (find_holds (s_locs s) (r_path r) r) as G. destruct (find (fun l => loc_match regex parse_ip (l_rule l) (r_path r) r) (s_locs s)) as [l0|]; [|reflexivity].
      exfalso. destruct G as (j & G1 & G2 & _). apply (N s l0); [left; reflexivity| |eapply nth_error_In; exact G1|exact G2].
      apply orb_true_iff in B as [B|B]; [left; apply leqb_ok; exact B|right; destruct (host_of r); [reflexivity|discriminate]].
  Qed.
  Lemma ws_location_ok r : forall servers l, ws_location regex parse_ip servers r = Some l ->
    exists pre sv post i, servers = pre ++ sv :: post /\
      (s_up_name sv = host_of r \/ host_of r = [] \/ post = []) /\ first_holds regex parse_ip (s_locs sv) (r_path r) r i l /\
      (forall x l', In x pre -> s_up_name x = host_of r \/ host_of r = [] -> In l' (s_locs x) -> ~ holds regex parse_ip (l_rule l') (r_path r) r).
  Proof using regex parse_ip. clear fmt limit serve rehost closed reuse same_key W.
    induction servers as [|s ss IH]; intros l H; [discriminate|]. cbn [ws_location] in H.
    assert (Skip : ws_location regex parse_ip ss r = Some l ->
      (s_up_name s = host_of r \/ host_of r = [] -> forall l', In l' (s_locs s) -> ~ holds regex parse_ip (l_rule l') (r_path r) r) ->
      exists pre sv post i, s :: ss = pre ++ sv :: post /\
      (s_up_name sv = host_of r \/ host_of r = [] \/ post = []) /\ first_holds regex parse_ip (s_locs sv) (r_path r) r i l /\
      (forall x l', In x pre -> s_up_name x = host_of r \/ host_of r = [] -> In l' (s_locs x) -> ~ holds regex parse_ip (l_rule l') (r_path r) r)).
    { intros H' Hs. destruct (IH l H') as (pre & sv & post & i & -> & A & B & C). exists (s :: pre), sv, post, i.
      split; [reflexivity|]. split; [exact A|]. split; [exact B|]. intros x l' [<-|I] Hx; [exact (Hs Hx l')|exact (C x l' I Hx)]. }
    destruct (leqb (s_up_name s) (host_of r) || match host_of r with [] => true | _ => false end || match ss with [] => true | _ => false end) eqn:E.
    - pose proof (find_holds (s_locs s) (r_path r) r) as F.
      destruct (find (fun l => loc_match regex parse_ip (l_rule l) (r_path r) r) (s_locs s)) as [l0|].
      + injection H as ->. destruct F as (i & F). exists [], s, ss, i. split; [reflexivity|]. split; [|split; [exact F|intros x l' []]].
        apply orb_true_iff in E as [E|E]; [apply orb_true_iff in E as [E|E]|].
        * left. apply leqb_ok. exact E.
        * right. left. destruct (host_of r); [reflexivity|discriminate].
        * right. right. destruct ss; [reflexivity|discriminate].
      + apply Skip; [exact H|]. intros _. exact F.
    - apply Skip; [exact H|]. intros Hx. exfalso. apply orb_false_iff in E as [E _]. apply orb_false_iff in E as [E1 E2].
      destruct Hx as [Hx|Hx]; [rewrite Hx, leqb_refl in E1; discriminate|rewrite Hx in E2; discriminate].
  Qed.
End D.
