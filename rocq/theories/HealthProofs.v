From Verif Require Import Base HealthModel HealthSpec.
Open Scope N_scope.

Fixpoint lead (b : bool) (l : list result) : N :=
  match l with
  | [] => 0
  | (c, _) :: l' => if Bool.eqb b c then 1 + lead b l' else 0
  end.
Fixpoint gapless (m now : N) (l : list result) : list result :=
  match l with
  | [] => []
  | (c, t) :: l' => if m <? now - t then [] else (c, t) :: gapless m t l'
  end.
Definition fresh (m : N) (l : list result) : list result :=
  match l with [] => [] | (c, t) :: l' => (c, t) :: gapless m t l' end.

Lemma results_app a o1 o2 : results a (o1 ++ o2) = results a o2 ++ results a o1.
Proof.
  induction o1 as [|o o1 IH]; cbn [results app]; [rewrite app_nil_r; reflexivity|].
  rewrite IH, app_assoc. reflexivity.
Qed.

Lemma gapless_prefix m l : forall now p s, gapless m now l = p ++ s -> exists s', l = p ++ s'.
Proof.
  induction l as [|[c t] l IH]; intros now p s H; cbn [gapless] in H.
  - destruct p; [exists []; reflexivity|discriminate].
  - destruct (m <? now - t).
    + destruct p; [exists ((c, t) :: l); reflexivity|discriminate].
    + destruct p as [|x p]; [exists ((c, t) :: l); reflexivity|]. cbn in H. injection H as <- H.
      destruct (IH _ _ _ H) as [s' E]. exists s'. cbn. rewrite <- E. reflexivity.
Qed.
Lemma gapless_nogap m l : forall now p s, gapless m now l = p ++ s -> nogap m now p.
Proof.
  induction l as [|[c t] l IH]; intros now p s H; cbn [gapless] in H.
  - destruct p; [exact I|discriminate].
  - destruct (N.ltb_spec m (now - t)).
    + destruct p; [exact I|discriminate].
    + destruct p as [|x p]; [exact I|]. cbn in H. injection H as <- H.
      cbn [nogap]. split; [assumption|]. apply (IH _ _ _ H).
Qed.
Lemma nogap_gapless m p : forall now s, nogap m now p -> exists s', gapless m now (p ++ s) = p ++ s'.
Proof.
  induction p as [|[c t] p IH]; intros now s H; cbn [nogap app gapless] in *; [eexists; reflexivity|].
  destruct H as [H1 H2]. replace (m <? now - t) with false by lia.
  destruct (IH t s H2) as [s' E]. exists s'. rewrite E. reflexivity.
Qed.

Lemma good_run_nil m : 1 <= m -> ~ good_run m [].
Proof.
  intros Hm (x & y & z & E & H1 & _). symmetry in E. apply app_eq_nil in E as [_ E].
  apply app_eq_nil in E as [-> _]. rewrite nlen_nil in H1. lia.
Qed.
Lemma lead_prefix b l : forall n, n <= lead b l -> exists y z, l = y ++ z /\ nlen y = n /\ Forall (fun r => fst r = b) y.
Proof.
  induction l as [|[c t] l IH]; intros n H; cbn [lead] in H.
  - exists [], []. rewrite nlen_nil. split; [reflexivity|]. split; [lia|constructor].
  - destruct (N.eq_dec n 0) as [->|Hn].
    { exists [], ((c, t) :: l). split; [reflexivity|]. split; [reflexivity|constructor]. }
    destruct (Bool.eqb b c) eqn:E; [|lia]. apply eqb_prop in E as <-.
    destruct (IH (n - 1)) as (y & z & A & B & C); [lia|]. exists ((b, t) :: y), z.
    rewrite A, nlen_cons. split; [reflexivity|]. split; [lia|]. constructor; [reflexivity|exact C].
Qed.
Lemma prefix_lead b l : forall y z, l = y ++ z -> Forall (fun r => fst r = b) y -> nlen y <= lead b l.
Proof.
  induction l as [|[c t] l IH]; intros y z E H.
  - symmetry in E. apply app_eq_nil in E as [-> _]. rewrite nlen_nil. lia.
  - destruct y as [|x y]; [rewrite nlen_nil; lia|]. injection E as <- E. pose proof (Forall_inv H) as Hc. pose proof (Forall_inv_tail H) as Hy.
    cbn [fst] in Hc. subst c. cbn [lead]. rewrite eqb_reflx, nlen_cons. specialize (IH y z E Hy). lia.
Qed.
Lemma good_run_cons m e l : good_run m (e :: l) <-> good_run m l \/ m <= lead false (e :: l).
Proof.
  split.
  - intros (x & y & z & E & H1 & H2). destruct x as [|e' x].
    + right. cbn in E. rewrite <- H1. apply (prefix_lead _ _ y z E H2).
    + left. injection E as -> E. exists x, y, z. repeat split; assumption.
  - intros [(x & y & z & E & H1 & H2)|H].
    + exists (e :: x), y, z. rewrite E. repeat split; assumption.
    + destruct (lead_prefix _ _ _ H) as (y & z & A & B & C). exists [], y, z. repeat split; assumption.
Qed.

Definition failed_in (max min : N) (l : list result) : Prop :=
  exists newer run older, l = newer ++ run ++ older /\ nlen run = max /\ all_failed run /\ ~ good_run min newer.

Lemma failed_in_nil max min : 1 <= max -> ~ failed_in max min [].
Proof.
  intros Hm (n & r & o & E & H1 & _). symmetry in E. apply app_eq_nil in E as [_ E].
  apply app_eq_nil in E as [-> _]. rewrite nlen_nil in H1. lia.
Qed.
Lemma failed_in_fail max min t l : 1 <= max -> 1 <= min ->
  failed_in max min ((true, t) :: l) <-> max <= lead true ((true, t) :: l) \/ failed_in max min l.
Proof.
  intros Hmax Hmin. split.
  - intros (n & r & o & E & H1 & H2 & H3). destruct n as [|e n].
    + left. cbn in E. rewrite <- H1. apply (prefix_lead _ _ r o E H2).
    + right. injection E as <- E. exists n, r, o. split; [exact E|]. split; [exact H1|]. split; [exact H2|].
      intros G. apply H3. apply good_run_cons. left. exact G.
  - intros [H|(n & r & o & E & H1 & H2 & H3)].
    + destruct (lead_prefix _ _ _ H) as (y & z & A & B & C). exists [], y, z.
      split; [exact A|]. split; [exact B|]. split; [exact C|]. apply good_run_nil. exact Hmin.
    + exists ((true, t) :: n), r, o. rewrite E. split; [reflexivity|]. split; [exact H1|]. split; [exact H2|].
      intros G. apply good_run_cons in G as [G|G]; [contradiction|]. cbn [lead Bool.eqb] in G. lia.
Qed.
Lemma lead_app_stop n r o : all_failed r -> 1 <= nlen r -> lead false (n ++ r ++ o) = lead false n.
Proof.
  intros Hr Hl. induction n as [|[c t] n IH]; cbn [app lead].
  - destruct r as [|[c t] r]; [rewrite nlen_nil in Hl; lia|]. pose proof (Forall_inv Hr) as Hc. cbn in Hc. subst c. reflexivity.
  - rewrite IH. reflexivity.
Qed.
Lemma failed_in_rise max min t l : 1 <= max -> 1 <= min ->
  failed_in max min ((false, t) :: l) <-> failed_in max min l /\ lead false ((false, t) :: l) < min.
Proof.
  intros Hmax Hmin. split.
  - intros (n & r & o & E & H1 & H2 & H3). destruct n as [|e n].
    + exfalso. cbn in E. destruct r as [|x r]; [rewrite nlen_nil in H1; lia|]. injection E as <- E.
      pose proof (Forall_inv H2) as Hx. discriminate.
    + injection E as <- E. split.
      * exists n, r, o. split; [exact E|]. split; [exact H1|]. split; [exact H2|].
        intros G. apply H3. apply good_run_cons. left. exact G.
      * destruct (N.lt_ge_cases (lead false ((false, t) :: l)) min) as [Hlt|Hge]; [exact Hlt|]. exfalso. apply H3.
        apply good_run_cons. right. rewrite E in Hge. cbn [lead Bool.eqb] in *.
        rewrite lead_app_stop in Hge; [exact Hge|exact H2|lia].
  - intros [(n & r & o & E & H1 & H2 & H3) Hlt]. exists ((false, t) :: n), r, o. rewrite E.
    split; [reflexivity|]. split; [exact H1|]. split; [exact H2|].
    intros G. apply good_run_cons in G as [G|G]; [contradiction|].
    rewrite E in Hlt. cbn [lead Bool.eqb] in *. rewrite lead_app_stop in Hlt; [lia|exact H2|lia].
Qed.

(* record vs history of one address *)
Definition rec_ok (max min m : N) (v : hrec) (hist : list result) : Prop :=
  h_timeout v = m /\
  (forall c t l, hist = (c, t) :: l -> h_record v = t) /\
  h_fall v = lead true (fresh m hist) /\ h_rise v = lead false (fresh m hist) /\
  (h_failed v = true <-> failed_in max min (fresh m hist)).

Definition hinv (T max min : N) (h : hcheck) (os : list hop) : Prop :=
  c_timeout h = T /\ c_max_fails h = max /\ c_min_rises h = min /\
  forall a, match lookup leqb a (c_map h) with
            | None => Forall (fun o => hop_addr o <> a) os
            | Some v => rec_ok max min (memory T a os) v (results a os) /\ ~ Forall (fun o => hop_addr o <> a) os
            end.

Lemma results_none a os : Forall (fun o => hop_addr o <> a) os -> results a os = [].
Proof.
  induction 1 as [|o os H1 _ IH]; [reflexivity|]. cbn [results]. rewrite IH.
  replace (leqb (hop_addr o) a) with false; [reflexivity|]. symmetry. apply (eqb_neq_of leqb leqb_ok). exact H1.
Qed.
Lemma memory_none T a os os' : Forall (fun o => hop_addr o <> a) os -> memory T a (os ++ os') = memory T a os'.
Proof.
  induction 1 as [|o os H1 _ IH]; [reflexivity|]. cbn [memory app].
  replace (leqb (hop_addr o) a) with false; [exact IH|]. symmetry. apply (eqb_neq_of leqb leqb_ok). exact H1.
Qed.
Lemma memory_some T a os os' : ~ Forall (fun o => hop_addr o <> a) os -> memory T a (os ++ os') = memory T a os.
Proof.
  induction os as [|o os IH]; intros H; [exfalso; apply H; constructor|]. cbn [memory app].
  destruct (leqb (hop_addr o) a) eqn:E; [reflexivity|]. apply IH. intros G. apply H. constructor; [|exact G].
  intros G1. rewrite G1, leqb_refl in E. discriminate.
Qed.

Lemma fresh_step m c t l v : (forall c' t' l', l = (c', t') :: l' -> h_record v = t') ->
  fresh m ((c, t) :: l) = (c, t) :: (if m <? t - h_record v then [] else fresh m l) \/ l = [].
Proof.
  intros H. destruct l as [|[c' t'] l]; [right; reflexivity|left]. cbn [fresh gapless].
  rewrite (H _ _ _ eq_refl). destruct (m <? t - t'); reflexivity.
Qed.

Lemma rec_fail max min m v l t : 1 <= max -> 1 <= min -> rec_ok max min m v l ->
  let w := if h_timeout v <? t - h_record v then clear_status v else v in
  rec_ok max min m (HRec (h_request w) t (h_timeout w) (h_fall w + 1) 0
     (if max <=? h_fall w + 1 then true else h_failed w)) ((true, t) :: l).
Proof.
  intros Hmax Hmin (E1 & E2 & E3 & E4 & E5).
  set (base := if m <? t - h_record v then [] else fresh m l).
  assert (Hf : fresh m ((true, t) :: l) = (true, t) :: base).
  { unfold base. destruct (fresh_step m true t l v E2) as [E | ->]; [exact E|]. cbn. destruct (_ <? _); reflexivity. }
  assert (Hw : let w := if h_timeout v <? t - h_record v then clear_status v else v in
     h_timeout w = m /\ h_fall w = lead true base /\ (h_failed w = true <-> failed_in max min base)).
  { unfold base. rewrite E1. destruct (m <? t - h_record v); cbn.
    - split; [exact E1|]. split; [reflexivity|]. split; [discriminate|]. intros G. destruct (failed_in_nil _ _ Hmax G).
    - split; [exact E1|]. split; [exact E3|exact E5]. }
  cbn zeta in *. destruct Hw as (W1 & W2 & W3).
  set (w := if h_timeout v <? t - h_record v then clear_status v else v) in *. clearbody w.
  unfold rec_ok. cbn [h_timeout h_record h_fall h_rise h_failed]. rewrite Hf.
  split; [exact W1|]. split; [intros c t' l' H; injection H; congruence|].
  cbn [lead Bool.eqb]. split; [lia|]. split; [reflexivity|].
  rewrite failed_in_fail by assumption. cbn [lead Bool.eqb]. rewrite W2.
  destruct (N.leb_spec max (lead true base + 1)) as [H|H]; [split; [intros _; left; lia|reflexivity]|].
  rewrite W3. split; [intros G; right; exact G|]. intros [G|G]; [lia|exact G].
Qed.
Lemma rec_rise max min m v l t : 1 <= max -> 1 <= min -> rec_ok max min m v l ->
  let w := if h_timeout v <? t - h_record v then clear_status v else v in
  rec_ok max min m (HRec (h_request w) t (h_timeout w) 0 (h_rise w + 1)
     (if min <=? h_rise w + 1 then false else h_failed w)) ((false, t) :: l).
Proof.
  intros Hmax Hmin (E1 & E2 & E3 & E4 & E5).
  set (base := if m <? t - h_record v then [] else fresh m l).
  assert (Hf : fresh m ((false, t) :: l) = (false, t) :: base).
  { unfold base. destruct (fresh_step m false t l v E2) as [E | ->]; [exact E|]. cbn. destruct (_ <? _); reflexivity. }
  assert (Hw : let w := if h_timeout v <? t - h_record v then clear_status v else v in
     h_timeout w = m /\ h_rise w = lead false base /\ (h_failed w = true <-> failed_in max min base)).
  { unfold base. rewrite E1. destruct (m <? t - h_record v); cbn.
    - split; [exact E1|]. split; [reflexivity|]. split; [discriminate|]. intros G. destruct (failed_in_nil _ _ Hmax G).
    - split; [exact E1|]. split; [exact E4|exact E5]. }
  cbn zeta in *. destruct Hw as (W1 & W2 & W3).
  set (w := if h_timeout v <? t - h_record v then clear_status v else v) in *. clearbody w.
  unfold rec_ok. cbn [h_timeout h_record h_fall h_rise h_failed]. rewrite Hf.
  split; [exact W1|]. split; [intros c t' l' H; injection H; congruence|].
  cbn [lead Bool.eqb]. split; [reflexivity|]. split; [lia|].
  rewrite failed_in_rise by assumption. cbn [lead Bool.eqb]. rewrite W2.
  destruct (N.leb_spec min (lead false base + 1)) as [H|H].
  - split; [discriminate|]. intros [_ G]. lia.
  - rewrite W3. split; [intros G; split; [exact G|lia]|]. intros [G _]. exact G.
Qed.

Lemma hinv_other T max min h os o v : hinv T max min h os ->
  c_timeout (hstep h o) = T -> c_max_fails (hstep h o) = max -> c_min_rises (hstep h o) = min ->
  c_map (hstep h o) = insert leqb (hop_addr o) v (c_map h) ->
  rec_ok max min (memory T (hop_addr o) (os ++ [o])) v (results (hop_addr o) (os ++ [o])) ->
  hinv T max min (hstep h o) (os ++ [o]).
Proof.
  intros (A & B & C & D) A' B' C' Em Hv. split; [exact A'|]. split; [exact B'|]. split; [exact C'|].
  intros a. rewrite Em. destruct (leqb (hop_addr o) a) eqn:E.
  - apply leqb_ok in E as <-. rewrite (lookup_insert_eq leqb leqb_ok). split; [exact Hv|].
    intros G. apply Forall_app in G as [_ G]. inversion G. congruence.
  - assert (Hne : a <> hop_addr o) by (intros ->; rewrite leqb_refl in E; discriminate).
    rewrite (lookup_insert_ne leqb leqb_ok) by exact Hne. specialize (D a).
    destruct (lookup leqb a (c_map h)) as [w|].
    + destruct D as [D1 D2]. rewrite memory_some by exact D2. rewrite results_app. cbn [results]. rewrite E. cbn [app].
      split; [exact D1|]. intros G. apply D2. apply Forall_app in G as [G _]. exact G.
    + apply Forall_app. split; [exact D|]. constructor; [congruence|constructor].
Qed.

Lemma hstep_inv T max min h os o : 2 <= max -> 1 <= min -> hinv T max min h os -> hinv T max min (hstep h o) (os ++ [o]).
Proof.
  intros Hmax Hmin H. pose proof H as (A & B & C & D). destruct o as [a t|a t|a d t]; cbn [hstep].
  - unfold add_fall_down. specialize (D a). pose proof (hinv_other T max min h os (HFail a t)) as G. cbn [hstep hop_addr] in G. unfold add_fall_down in G.
    destruct (lookup leqb a (c_map h)) as [v|].
    + destruct D as [D1 D2]. rewrite B in *.
      eapply G; try eassumption; try reflexivity.
      rewrite memory_some by exact D2. rewrite results_app. cbn [results hop_addr]. rewrite leqb_refl. cbn [app].
      apply rec_fail; [lia|lia|exact D1].
    + rewrite A in *. eapply G; try eassumption; try reflexivity.
      rewrite memory_none by exact D. rewrite results_app, (results_none a os) by exact D.
      cbn [results hop_addr memory]. rewrite leqb_refl. cbn [app hrec_new h_timeout h_record h_fall h_rise h_failed h_request].
      split; [reflexivity|]. split; [intros c t' l' E; injection E as <- <- <-; reflexivity|]. split; [reflexivity|]. split; [reflexivity|].
      cbn [h_failed h_timeout h_record fresh gapless]. rewrite failed_in_fail by lia. cbn [lead Bool.eqb].
      split; [discriminate|]. intros [G1|G1]; [lia|]. destruct (failed_in_nil max min) in G1; [lia|exact G1].
  - unfold add_rise_up. specialize (D a). pose proof (hinv_other T max min h os (HRise a t)) as G. cbn [hstep hop_addr] in G. unfold add_rise_up in G.
    destruct (lookup leqb a (c_map h)) as [v|].
    + destruct D as [D1 D2]. rewrite C in *.
      eapply G; try eassumption; try reflexivity.
      rewrite memory_some by exact D2. rewrite results_app. cbn [results hop_addr]. rewrite leqb_refl. cbn [app].
      apply rec_rise; [lia|lia|exact D1].
    + rewrite A in *. eapply G; try eassumption; try reflexivity.
      rewrite memory_none by exact D. rewrite results_app, (results_none a os) by exact D.
      cbn [results hop_addr memory]. rewrite leqb_refl. cbn [app hrec_new h_timeout h_record h_fall h_rise h_failed h_request].
      split; [reflexivity|]. split; [intros c t' l' E; injection E as <- <- <-; reflexivity|]. split; [reflexivity|]. split; [reflexivity|].
      cbn [h_failed h_timeout h_record fresh gapless]. rewrite failed_in_rise by lia. cbn [lead Bool.eqb].
      split; [discriminate|]. intros [G1 _]. destruct (failed_in_nil max min) in G1; [lia|exact G1].
  - unfold check_can_request. specialize (D a). pose proof (hinv_other T max min h os (HProbe a d t)) as G. cbn [hstep hop_addr] in G. unfold check_can_request in G.
    destruct (lookup leqb a (c_map h)) as [v|] eqn:El.
    + destruct D as [D1 D2].
      destruct (match h_request v with Some ins => d <? t - ins | None => true end).
      * eapply G; try eassumption; try reflexivity.
        rewrite memory_some by exact D2. rewrite results_app. cbn [results hop_addr]. rewrite leqb_refl. cbn [app].
        exact D1.
      * cbn [snd]. split; [exact A|]. split; [exact B|]. split; [exact C|]. intros b. destruct H as (_ & _ & _ & D).
        specialize (D b). destruct (lookup leqb b (c_map h)) as [w|] eqn:Eb.
        -- destruct D as [D3 D4]. rewrite memory_some by exact D4. rewrite results_app.
           replace (results b [HProbe a d t]) with (@nil result) by (cbn; destruct (leqb a b); reflexivity).
           split; [exact D3|]. intros F. apply D4. apply Forall_app in F as [F _]. exact F.
        -- apply Forall_app. split; [exact D|]. constructor; [|constructor]. cbn. intros ->. congruence.
    + cbn [snd]. eapply G; try eassumption; try reflexivity.
      rewrite memory_none by exact D. rewrite results_app, (results_none a os) by exact D.
      cbn [results hop_addr memory]. rewrite leqb_refl. cbn [app].
      split; [reflexivity|]. split; [discriminate|]. split; [reflexivity|]. split; [reflexivity|].
      cbn [h_failed]. split; [discriminate|]. intros F. destruct (failed_in_nil max min) in F; [lia|exact F].
Qed.

Lemma hinv_new T max min : hinv T max min (hcheck_new T max min) [].
Proof. repeat split. intros a. cbn. constructor. Qed.

Lemma hrun_inv T max min os : 2 <= max -> 1 <= min -> hinv T max min (hrun (hcheck_new T max min) os) os.
Proof.
  intros Hmax Hmin. induction os as [|o os IH] using rev_ind; [apply hinv_new|].
  unfold hrun in *. rewrite fold_left_app. apply hstep_inv; assumption.
Qed.

Lemma down_fresh max min m now hist : 1 <= max ->
  down max min m now hist <->
  failed_in max min (fresh m hist) /\ match hist with [] => True | (_, t) :: _ => now - t <= m end.
Proof.
  intros Hmax. split.
  - intros (n & r & o & E & H1 & H2 & H3 & H4). rewrite app_assoc in E.
    destruct (n ++ r) as [|[c t] p] eqn:Ep.
    { apply app_eq_nil in Ep as [_ ->]. rewrite nlen_nil in H1. lia. }
    subst hist. cbn [app nogap] in *. destruct H3 as [H3 H5]. split; [|exact H3].
    destruct (nogap_gapless m p t o H5) as [s' Es]. cbn [fresh]. rewrite Es.
    exists n, r, s'. rewrite app_assoc, Ep. split; [reflexivity|]. split; [exact H1|]. split; assumption.
  - intros [(n & r & o & E & H1 & H2 & H4) Hnow]. destruct hist as [|[c t] l].
    { cbn in E. symmetry in E. apply app_eq_nil in E as [_ E]. apply app_eq_nil in E as [-> _]. rewrite nlen_nil in H1. lia. }
    cbn [fresh] in E. rewrite app_assoc in E. destruct (n ++ r) as [|[c' t'] p] eqn:Ep.
    { apply app_eq_nil in Ep as [_ ->]. rewrite nlen_nil in H1. lia. }
    cbn in E. injection E as <- <- E. destruct (gapless_prefix _ _ _ _ _ E) as [s' Es].
    exists n, r, s'. rewrite app_assoc, Ep. split; [cbn; rewrite <- Es; reflexivity|].
    split; [exact H1|]. split; [exact H2|]. split; [|exact H4]. rewrite ?Ep. cbn [nogap].
    split; [exact Hnow|]. apply (gapless_nogap _ _ _ _ _ E).
Qed.

Lemma health_spec T max min os a now : 2 <= max -> 1 <= min ->
  is_fall_down a now (hrun (hcheck_new T max min) os) = true <->
  down max min (memory T a os) now (results a os).
Proof.
  intros Hmax Hmin. destruct (hrun_inv T max min os Hmax Hmin) as (_ & _ & _ & D). specialize (D a).
  rewrite down_fresh by lia. unfold is_fall_down.
  destruct (lookup leqb a (c_map (hrun (hcheck_new T max min) os))) as [v|].
  - destruct D as [(E1 & E2 & E3 & E4 & E5) _]. rewrite E1.
    destruct (results a os) as [|[c t] l] eqn:Er.
    + cbn [fresh] in *. assert (h_failed v = false) as ->.
      { destruct (h_failed v); [|reflexivity]. exfalso. apply (failed_in_nil max min); [lia|]. apply E5. reflexivity. }
      destruct (_ <? _); (split; [discriminate|]; intros [G _]; exfalso; apply (failed_in_nil max min); [lia|exact G]).
    + rewrite (E2 _ _ _ eq_refl). destruct (N.ltb_spec (memory T a os) (now - t)) as [H|H].
      * split; [discriminate|]. intros [_ G]. lia.
      * rewrite E5. split; [intros G; split; assumption|intros [G _]; exact G].
  - rewrite results_none by exact D. split; [discriminate|]. intros [G _]. exfalso.
    apply (failed_in_nil max min); [lia|exact G].
Qed.

(* The member thresholds of check_fall_down. *)
Lemma member_spec T max min os a now to fall rise : 2 <= max -> 1 <= min -> 1 <= fall ->
  check_fall_down a to fall rise now (hrun (hcheck_new T max min) os) = true ->
  exists c t l, results a os = (c, t) :: l /\ now - t <= to /\
   (fall <= lead true (fresh (memory T a os) (results a os)) \/
    (lead false (fresh (memory T a os) (results a os)) < rise /\ failed_in max min (fresh (memory T a os) (results a os)))).
Proof.
  intros Hmax Hmin Hfall. destruct (hrun_inv T max min os Hmax Hmin) as (_ & _ & _ & D). specialize (D a).
  unfold check_fall_down. destruct (lookup leqb a (c_map (hrun (hcheck_new T max min) os))) as [v|]; [|discriminate].
  destruct D as [(E1 & E2 & E3 & E4 & E5) _].
  destruct (results a os) as [|[c t] l] eqn:Er.
  - cbn [fresh lead] in *. rewrite E3. replace (fall <=? 0) with false by lia.
    destruct (_ <? _); [discriminate|]. destruct (_ <=? _); [discriminate|]. intros H. apply E5 in H.
    exfalso. apply (failed_in_nil max min); [lia|exact H].
  - rewrite (E2 _ _ _ eq_refl). destruct (N.ltb_spec to (now - t)) as [H|H]; [discriminate|].
    destruct (N.leb_spec fall (h_fall v)) as [G1|G1];
      [|destruct (N.leb_spec rise (h_rise v)) as [G2|G2]; [discriminate|]]; rewrite <- ?E3, <- ?E4;
      intros G; exists c, t, l; (split; [reflexivity|]); (split; [exact H|]).
    + left. exact G1.
    + right. split; [exact G2|]. apply E5. exact G.
Qed.

(* ---- choice ------------------------------------------------------------------ *)
Lemma pick_member p l : forall r a, pick p l r = Some a -> exists s, In s l /\ p s = true /\ s_addr s = a.
Proof.
  induction l as [|s l IH]; intros r a H; cbn [pick] in H; [discriminate|].
  destruct (p s) eqn:Ep.
  - destruct (r <=? s_weight s); [injection H as <-; exists s; auto using in_eq|].
    destruct (IH _ _ H) as (s' & A & B). exists s'. split; [right; exact A|exact B].
  - destruct (IH _ _ H) as (s' & A & B). exists s'. split; [right; exact A|exact B].
Qed.
Lemma pick_filter p l : forall r, pick p l r = pick (fun _ => true) (filter p l) r.
Proof.
  induction l as [|s l IH]; intros r; cbn [pick filter]; [reflexivity|].
  destruct (p s); cbn [pick]; rewrite IH; reflexivity.
Qed.
Lemma pick_some l : forall r, r < total l -> exists a, pick (fun _ => true) l r = Some a.
Proof.
  induction l as [|s l IH]; intros r H; cbn [pick total fold_right] in *; [lia|].
  destruct (N.leb_spec r (s_weight s)); [eexists; reflexivity|]. apply IH. unfold total. lia.
Qed.

Lemma sums_spec now h l : forall s0 a0 r,
  sums now h l s0 a0 = Some r ->
  r = (s0 + total (filter (fun s => negb (is_fall_down (s_addr s) now h)) l), a0 + total l).
Proof.
  induction l as [|s l IH]; intros s0 a0 r H; cbn [sums filter total fold_right] in *.
  - injection H as <-. f_equal; lia.
  - destruct (is_fall_down (s_addr s) now h); cbn [negb].
    + unfold add16 in H. destruct (_ <? _); [|discriminate]. rewrite (IH _ _ _ H). unfold total. f_equal. lia.
    + unfold add16 in H. destruct (_ <? _); [|discriminate]. destruct (_ <? _); [|discriminate].
      rewrite (IH _ _ _ H). cbn [total fold_right]. unfold total. f_equal; lia.
Qed.
Lemma total_filter_le p l : total (filter p l) <= total l.
Proof.
  induction l as [|s l IH]; cbn [filter]; [lia|]. destruct (p s); cbn [total fold_right] in *; unfold total in *; lia.
Qed.
Lemma sums_some now h l : forall s0 a0, a0 + total l < 65536 -> s0 <= a0 -> exists r, sums now h l s0 a0 = Some r.
Proof.
  induction l as [|s l IH]; intros s0 a0 H Hle; cbn [sums total fold_right] in *; [eexists; reflexivity|].
  unfold total in *. destruct (is_fall_down (s_addr s) now h); unfold add16.
  - replace (a0 + s_weight s <? 65536) with true by lia. apply IH; lia.
  - replace (s0 + s_weight s <? 65536) with true by lia. replace (a0 + s_weight s <? 65536) with true by lia. apply IH; lia.
Qed.

Definition good (now : N) (h : hcheck) (s : server) : bool := negb (is_fall_down (s_addr s) now h).

Lemma choice_spec draw now h l : l <> [] -> total l < 65536 ->
  get_server_addr draw now h l =
  if negb (total (filter (good now h) l) =? 0)
  then Ok (pick (live now h) l (draw mod total (filter (good now h) l)))
  else if total l =? 0 then Panic else Ok (pick (fun _ => true) l (draw mod total l)).
Proof.
  intros Hl Ht. unfold get_server_addr. destruct l as [|s l]; [contradiction|].
  unfold calc_sum_weight. destruct (sums_some now h (s :: l) 0 0) as [r E]; [lia|lia|].
  rewrite E. rewrite (sums_spec _ _ _ _ _ _ E). reflexivity.
Qed.

Lemma choice_member draw now h l a : get_server_addr draw now h l = Ok (Some a) -> exists s, In s l /\ s_addr s = a.
Proof.
  intros H. unfold get_server_addr in H. destruct l as [|s l]; [discriminate|].
  destruct (calc_sum_weight now h (s :: l)) as [[sum all]|]; [|discriminate].
  assert (exists p r, pick p (s :: l) r = Some a) as (p & r & E).
  { destruct (negb (sum =? 0)); [injection H as H; exists (live now h), (draw mod sum); exact H|].
    destruct (all =? 0); [discriminate|]. injection H as H. exists (fun _ => true), (draw mod all). exact H. }
  apply pick_member in E as (x & A & _ & B). eauto.
Qed.

Lemma choice_live draw now h l : total l < 65536 ->
  (exists s, In s l /\ live now h s = true /\ s_weight s <> 0) ->
  (forall s, In s l -> live now h s = good now h s) ->
  exists s, In s l /\ live now h s = true /\ get_server_addr draw now h l = Ok (Some (s_addr s)).
Proof.
  intros Ht (s0 & Hin & Hlive & Hw) Hag.
  assert (Hne : l <> []) by (intros ->; destruct Hin).
  assert (Ef : filter (good now h) l = filter (live now h) l).
  { clear - Hag. induction l as [|s l IH]; [reflexivity|]. cbn [filter].
    rewrite (Hag s (or_introl eq_refl)). rewrite IH; [reflexivity|]. intros x Hx. apply Hag. right. exact Hx. }
  assert (Hpos : 0 < total (filter (live now h) l)).
  { clear - Hin Hlive Hw. induction l as [|s l IH]; [destruct Hin|]. cbn [filter]. destruct Hin as [->|Hin].
    - rewrite Hlive. cbn [total fold_right]. lia.
    - specialize (IH Hin). destruct (live now h s); cbn [total fold_right]; unfold total in *; lia. }
  rewrite choice_spec by assumption. rewrite Ef.
  replace (total (filter (live now h) l) =? 0) with false by lia. cbn [negb].
  destruct (pick_some (filter (live now h) l) (draw mod total (filter (live now h) l))) as [a Ea].
  { apply N.mod_lt. lia. }
  rewrite pick_filter, Ea. rewrite <- pick_filter in Ea. apply pick_member in Ea as (s & A & B & <-).
  exists s. repeat split; assumption.
Qed.

(* counting draws *)
Lemma draws_ext f g n : (forall r, r < n -> f r = g r) -> draws f n = draws g n.
Proof.
  intros H. unfold draws. f_equal.
  assert (G : forall k m, (k + m <= N.to_nat n)%nat ->
    filter f (map N.of_nat (seq k m)) = filter g (map N.of_nat (seq k m))).
  { intros k m. revert k. induction m as [|m IH]; intros k Hk; [reflexivity|]. cbn [seq map filter].
    rewrite H by lia. rewrite IH by lia. reflexivity. }
  apply G. lia.
Qed.
Lemma draws_succ f n : draws f (n + 1) = draws f n + (if f n then 1 else 0).
Proof.
  unfold draws. replace (N.to_nat (n + 1)) with (S (N.to_nat n)) by lia.
  rewrite seq_S, map_app, filter_app, nlen_app. cbn [map filter Nat.add].
  rewrite N2Nat.id. destruct (f n); rewrite ?nlen_cons, nlen_nil; lia.
Qed.
Lemma draws_interval lo hi n : draws (fun r => (lo <=? r) && (r <? hi)) n = N.min hi n - N.min lo (N.min hi n).
Proof.
  induction n as [|n IH] using N.peano_ind; [change (draws (fun r => (lo <=? r) && (r <? hi)) 0) with 0; lia|].
  rewrite <- N.add_1_r, draws_succ, IH.
  destruct (N.leb_spec lo n), (N.ltb_spec n hi); cbn [andb]; lia.
Qed.

Lemma pick_interval l1 s l2 : (forall x, In x l1 -> s_addr x <> s_addr s) -> (forall x, In x l2 -> s_addr x <> s_addr s) ->
  forall r, chooses (s_addr s) (pick (fun _ => true) (l1 ++ s :: l2) r) =
  ((match l1 with [] => 0 | _ => total l1 + 1 end) <=? r) && (r <? total l1 + s_weight s + 1).
Proof.
  intros H1 H2. induction l1 as [|x l1 IH]; intros r; cbn [app pick].
  - cbn [total fold_right]. destruct (N.leb_spec r (s_weight s)).
    + cbn [chooses]. rewrite leqb_refl. lia.
    + destruct (pick (fun _ => true) l2 (r - s_weight s)) as [a|] eqn:E; [|cbn [chooses]; lia].
      apply pick_member in E as (y & A & _ & <-). cbn [chooses].
      rewrite (eqb_neq_of leqb leqb_ok); [lia|]. intros G. apply (H2 y A). congruence.
  - cbn [total fold_right]. destruct (N.leb_spec r (s_weight x)).
    + cbn [chooses]. rewrite (eqb_neq_of leqb leqb_ok); [unfold total; lia|]. intros G. apply (H1 x); [left; reflexivity|congruence].
    + rewrite IH by (intros y Hy; apply H1; right; exact Hy). destruct l1 as [|z l1]; cbn [total fold_right]; unfold total; lia.
Qed.

Definition share (l1 : list server) (s : server) (l2 : list server) : N :=
  let sum := total (l1 ++ s :: l2) in
  draws (fun r => chooses (s_addr s) (pick (fun _ => true) (l1 ++ s :: l2) r)) sum.

Lemma total_app a b : total (a ++ b) = total a + total b.
Proof. unfold total. induction a as [|x a IH]; cbn [app fold_right]; [lia|]. rewrite IH. lia. Qed.

Lemma share_spec l1 s l2 : (forall x, In x l1 -> s_addr x <> s_addr s) -> (forall x, In x l2 -> s_addr x <> s_addr s) ->
  share l1 s l2 <= s_weight s + 1 /\ s_weight s <= share l1 s l2 + 1 /\
  (l1 <> [] -> total l2 <> 0 -> share l1 s l2 = s_weight s) /\
  (l1 = [] -> total l2 <> 0 -> share l1 s l2 = s_weight s + 1) /\
  (l1 <> [] -> s_weight s <> 0 -> total l2 = 0 -> share l1 s l2 + 1 = s_weight s).
Proof.
  intros H1 H2. unfold share.
  rewrite (draws_ext _ _ _ (fun r _ => pick_interval l1 s l2 H1 H2 r)), draws_interval.
  rewrite total_app. cbn [total fold_right]. fold (total l2).
  destruct l1 as [|x l1].
  - cbn [total fold_right]. repeat split; intros; try congruence; lia.
  - assert (Hx : x :: l1 <> []) by discriminate. generalize dependent (x :: l1). intros l ? ?.
    repeat split; intros; try congruence; lia.
Qed.

(* ---- connect ------------------------------------------------------------------ *)
Lemma fall_other a b t now h : a <> b -> is_fall_down a now (add_fall_down b t h) = is_fall_down a now h.
Proof.
  intros Hne. unfold is_fall_down, add_fall_down. destruct (lookup leqb b (c_map h)); cbn [c_map set_map];
    rewrite (lookup_insert_ne leqb leqb_ok) by exact Hne; reflexivity.
Qed.
(* what is recorded of one contacted turn *)
Definition noted (up : addr -> bool) (x : turn) : hop :=
  if up (tn_addr x) then HRise (tn_addr x) (tn_end x) else HFail (tn_addr x) (tn_end x).
Lemma connect_walk up l : forall h r tr h', connect_at up l h = (r, tr, h') ->
  h' = hrun h (map (noted up) tr) /\
  (forall a, r = Some a -> up a = true /\ exists tr0 x, tr = tr0 ++ [x] /\ tn_addr x = a /\ is_fall_down a (tn_look x) h = false /\
     Forall (fun y => up (tn_addr y) = false) tr0) /\
  (r = None -> Forall (fun y => up (tn_addr y) = false) tr /\
     forall x, In x l -> up (tn_addr x) = true -> is_fall_down (tn_addr x) (tn_look x) h = true) /\
  (forall x, In x tr -> In x l) /\
  (forall tr0 x tr1, tr = tr0 ++ x :: tr1 -> is_fall_down (tn_addr x) (tn_look x) (hrun h (map (noted up) tr0)) = false).
Proof.
  induction l as [|b l IH]; intros h r tr h' H; cbn [connect_at] in H.
  - injection H as <- <- <-. split; [reflexivity|]. split; [discriminate|]. split; [split; [constructor|intros x []]|].
    split; [intros x []|]. intros [|? ?] x tr1 E; discriminate E.
  - destruct (is_fall_down (tn_addr b) (tn_look b) h) eqn:Ed; [|destruct (up (tn_addr b)) eqn:Eu].
    + destruct (IH _ _ _ _ H) as (A & B & C & D & E). split; [exact A|]. split; [exact B|]. split; [|split; [|exact E]].
      * intros Er. destruct (C Er) as [C1 C2]. split; [exact C1|]. intros x [->|Hx] Hup; [exact Ed|exact (C2 x Hx Hup)].
      * intros x Hx. right. exact (D x Hx).
    + injection H as <- <- <-. split; [unfold noted; cbn [map hrun fold_left]; rewrite Eu; reflexivity|].
      split; [|split; [discriminate|split]].
      * intros a [= <-]. split; [exact Eu|]. exists [], b. split; [reflexivity|]. split; [reflexivity|]. split; [exact Ed|constructor].
      * intros x [->|[]]. left. reflexivity.
      * intros [|y tr0] x tr1 E; cbn [app] in E.
        -- injection E as <- _. exact Ed.
        -- injection E as _ E. destruct tr0; discriminate E.
    + destruct (connect_at up l (add_fall_down (tn_addr b) (tn_end b) h)) as [[r0 tr0] h0] eqn:E0.
      injection H as <- <- <-. destruct (IH _ _ _ _ E0) as (A & B & C & D & E).
      assert (Nb : noted up b = HFail (tn_addr b) (tn_end b)) by (unfold noted; rewrite Eu; reflexivity).
      split; [cbn [map hrun fold_left]; rewrite Nb; exact A|]. split; [|split; [|split]].
      * intros a Ea. destruct (B a Ea) as (Hup & t0 & x & -> & Hx & Hd & Hf). split; [exact Hup|].
        exists (b :: t0), x. split; [reflexivity|]. split; [exact Hx|]. split; [|constructor; [exact Eu|exact Hf]].
        rewrite <- Hd. symmetry. apply fall_other. intros ->. congruence.
      * intros Er. destruct (C Er) as [C1 C2]. split; [constructor; [exact Eu|exact C1]|].
        intros x [->|Hx] Hup; [congruence|]. rewrite <- (C2 x Hx Hup). symmetry. apply fall_other. intros Ee. congruence.
      * intros x [->|Hx]; [left; reflexivity|right; exact (D x Hx)].
      * intros [|y t0] x t1 Et; cbn [app] in Et.
        -- injection Et as <- _. exact Ed.
        -- injection Et as <- Et. cbn [map hrun fold_left]. rewrite Nb. exact (E t0 x t1 Et).
Qed.
Lemma connect_cons up t a l h : connect up t (a :: l) h =
  if is_fall_down a t h then connect up t l h else if up a then (Some a, add_rise_up a t h) else connect up t l (add_fall_down a t h).
Proof.
  unfold connect. cbn [map connect_at tn_addr tn_look tn_end].
  destruct (is_fall_down a t h); [reflexivity|]. destruct (up a); [reflexivity|].
  destruct (connect_at up _ _) as [[? ?] ?]. reflexivity.
Qed.
