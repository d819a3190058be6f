(* C47, C115: active health checks. *)
From Coq Require Import Lia.
From Coq Require Import String.
From Verif Require Import Base Text TextOps HealthModel HcModel.
Open Scope N_scope.

(* the backends of a section that are not for udp *)
Definition backend (s : option hsect) (a : addr) : Prop :=
  exists sec u, s = Some sec /\ (In u (hs_up sec) \/ exists sv, In sv (hs_servers sec) /\ In u sv) /\ u_bind u <> txt "udp" /\ In a (u_addrs u).

Lemma add_addr_ok already a : (forall x, In x (add_addr already a) <-> In x already \/ x = a) /\ (NoDup already -> NoDup (add_addr already a)).
Proof.
  unfold add_addr. destruct (existsb (leqb a) already) eqn:E.
  - apply existsb_exists in E. destruct E as (y & I & E). apply leqb_ok in E. subst y. split; [|auto]. intro x. split; [auto|]. intros [H| ->]; assumption.
  - assert (N : ~ In a already) by (intro I; assert (Q : existsb (leqb a) already = true) by (apply existsb_exists; exists a; split; [exact I|now apply leqb_ok]); congruence).
    split; [intro x; rewrite in_app_iff; cbn; intuition|]. intro D. apply NoDup_rev in D. rewrite <- (rev_involutive (already ++ [a])). apply NoDup_rev. rewrite rev_app_distr. cbn. constructor; [now rewrite <- in_rev|exact D].
Qed.
Lemma fold_ok {B} (f : list addr -> B -> list addr) (P : B -> addr -> Prop) : (forall acc b x, In x (f acc b) <-> In x acc \/ P b x) -> (forall acc b, NoDup acc -> NoDup (f acc b)) ->
  forall l acc, (forall x, In x (fold_left f l acc) <-> In x acc \/ exists b, In b l /\ P b x) /\ (NoDup acc -> NoDup (fold_left f l acc)).
Proof.
  intros H D. induction l as [|b l IH]; intro acc; cbn [fold_left].
  - split; [|auto]. intro x. split; [auto|]. intros [I|(b & [] & _)]. exact I.
  - destruct (IH (f acc b)) as (A & B0). split; [|intro N; apply B0, D, N]. intro x. rewrite A, H. split.
    + intros [[I|I]|(c & I & J)]; [now left|right; exists b; split; [now left|exact I]|right; exists c; split; [now right|exact J]].
    + intros [I|(c & [<-|I] & J)]; [left; now left|left; now right|right; exists c; auto].
Qed.
Lemma try_ok ups already : (forall x, In x (try_add_upstream already ups) <-> In x already \/ exists u, In u ups /\ u_bind u <> txt "udp" /\ In x (u_addrs u)) /\ (NoDup already -> NoDup (try_add_upstream already ups)).
Proof.
  unfold try_add_upstream. apply (fold_ok _ (fun u x => u_bind u <> txt "udp" /\ In x (u_addrs u))).
  - intros acc u x. destruct (leqb (u_bind u) (txt "udp")) eqn:E.
    + apply leqb_ok in E. tauto.
    + assert (NE : u_bind u <> txt "udp") by (intro Q; apply leqb_ok in Q; congruence).
      rewrite (proj1 (fold_ok add_addr (fun a x => x = a) (fun acc b x => proj1 (add_addr_ok acc b) x) (fun acc b => proj2 (add_addr_ok acc b)) (u_addrs u) acc) x).
      split; [intros [I|(b & I & ->)]; auto|intros [I|(_ & I)]; [now left|right; exists x; auto]].
  - intros acc u. destruct (leqb (u_bind u) (txt "udp")); [auto|]. apply (fold_ok add_addr (fun a x => x = a) (fun acc b x => proj1 (add_addr_ok acc b) x) (fun acc b => proj2 (add_addr_ok acc b))).
Qed.
Lemma section_ok s already : (forall x, In x (add_section already s) <-> In x already \/ backend s x) /\ (NoDup already -> NoDup (add_section already s)).
Proof.
  unfold add_section, backend. destruct s as [s|]; [|split; [intro x; split; [auto|intros [I|(sec & u & E & _)]; [exact I|discriminate E]]|auto]].
  destruct (fold_ok try_add_upstream (fun ups x => exists u, In u ups /\ u_bind u <> txt "udp" /\ In x (u_addrs u)) (fun acc b x => proj1 (try_ok b acc) x) (fun acc b => proj2 (try_ok b acc)) (hs_servers s) (try_add_upstream already (hs_up s))) as (A & D).
  destruct (try_ok (hs_up s) already) as (A' & D'). split; [|auto]. intro x. rewrite A, A'. split.
  - intros [[I|(u & I & J)]|(b & I & (u & J & K))]; [now left|right; exists s, u; tauto|right; exists s, u; repeat split; [right; exists b; auto|tauto..]].
  - intros [I|(sec & u & E & [I|(sv & I & J)] & K)]; [left; now left|injection E as <-; left; right; exists u; tauto|injection E as <-; right; exists sv; split; [exact I|exists u; tauto]].
Qed.
(* C47: exactly the backends that are not for udp, each once *)
Theorem C47_targets http stream : NoDup (get_health_check http stream) /\ forall a, In a (get_health_check http stream) <-> backend http a \/ backend stream a.
Proof.
  unfold get_health_check. destruct (section_ok http []) as (A & D), (section_ok stream (add_section [] http)) as (A' & D'). split; [apply D', D; constructor|].
  intro a. rewrite A', A. cbn [In]. tauto.
Qed.
Definition ex_http := Some (HSect [Upst (txt "tcp") [[1]; [2]]; Upst (txt "udp") [[3]]] [[Upst (txt "tcp") [[2]; [4]]]]).
Example C47_demo : get_health_check ex_http (Some (HSect [Upst (txt "tcp") [[3]; [1]]] [])) = [[1]; [2]; [4]; [3]].
Proof. reflexivity. Qed.

(* ---- the checker ---- *)
Definition starts (tr : list aout) (a : addr) (t : N) : Prop := In (AStart t a) tr.
(* time does not go back *)
Fixpoint clock (t : N) (es : list aev) : Prop :=
  match es with [] => True | ATurn now :: es' => t <= now /\ clock now es' | _ :: es' => clock t es' end.
Fixpoint last_turn (t : N) (es : list aev) : N := match es with [] => t | ATurn now :: es' => last_turn now es' | _ :: es' => last_turn t es' end.
Definition same_list (e : aev) : Prop := match e with ATurn _ => True | _ => False end.

(* each entry's last_record is the time of its last check *)
Definition tracks (tr : list aout) (bound : N) (o : one) : Prop :=
  match o_last o with
  | None => forall t, ~ starts tr (o_addr o) t
  | Some l => starts tr (o_addr o) l /\ l <= bound /\ forall t, starts tr (o_addr o) t -> t <= l
  end.
Definition static (l : list one) := map (fun o => (o_addr o, o_every o)) l.
Lemma turn_static now l : static (fst (turn now l)) = static l.
Proof. unfold turn, static. cbn [fst]. rewrite map_map. apply map_ext. intros [a e q]. destruct (due now _); reflexivity. Qed.
Lemma starts_turn now l tr a t (x : N) : starts (tr ++ map (AStart now) (map o_addr (filter (due now) l)) ++ [ASleep x]) a t <-> starts tr a t \/ (t = now /\ exists o, In o l /\ o_addr o = a /\ due now o = true).
Proof.
  unfold starts. rewrite !in_app_iff, !in_map_iff. split.
  - intros [I|[(b & E & I)|[E|[]]]]; [now left| |discriminate E]. injection E as <- <-. right. split; [reflexivity|]. apply in_map_iff in I. destruct I as (o & E & I). apply filter_In in I. exists o. tauto.
  - intros [I|(-> & o & I & <- & D)]; [now left|]. right. left. exists (o_addr o). split; [reflexivity|]. apply in_map. apply filter_In. auto.
Qed.
Lemma nodup_addr l o o' : NoDup (map fst (static l)) -> In o l -> In o' l -> o_addr o = o_addr o' -> o = o'.
Proof.
  unfold static. rewrite map_map. cbn [fst]. induction l as [|x l IH]; intros D I J E; [destruct I|]. cbn [map] in D. apply NoDup_cons_iff in D. destruct D as (N & D). destruct I as [->|I], J as [->|J]; try reflexivity.
  - exfalso. apply N. rewrite E. now apply in_map.
  - exfalso. apply N. rewrite <- E. now apply in_map.
  - auto.
Qed.
Record good (s : act) (tr : list aout) (bound : N) (l0 : list one) : Prop := {
  g_static : static (a_list s) = static l0;
  g_new : a_new s = None; g_gone : a_gone s = false; g_over : a_over s = false;
  g_tracks : forall o, In o (a_list s) -> tracks tr bound o }.
Lemma good_turn s tr bound l0 now : NoDup (map fst (static l0)) -> good s tr bound l0 -> bound <= now -> good (fst (astep s (ATurn now))) (tr ++ snd (astep s (ATurn now))) now l0.
Proof.
  intros D [A B C E G] L. cbn [astep]. rewrite E, B, C. destruct (turn now (a_list s)) as [l' cs] eqn:T. cbn [fst snd].
  assert (T1 := turn_static now (a_list s)). rewrite T in T1. cbn [fst] in T1. unfold turn in T. injection T as <- <-. split; cbn [a_list a_new a_gone a_over]; try reflexivity; [congruence|].
  intros o I. apply in_map_iff in I. destruct I as (o1 & <- & I). specialize (G o1 I). unfold tracks in *. rewrite <- A in D.
  set (tr' := tr ++ _). assert (ST : forall a t, starts tr' a t <-> starts tr a t \/ (t = now /\ exists o, In o (a_list s) /\ o_addr o = a /\ due now o = true)) by (intros; apply starts_turn).
  destruct (due now o1) eqn:DU.
  - cbn [o_last o_addr]. split; [apply ST; right; split; [reflexivity|exists o1; auto]|]. split; [lia|]. intros t Q. apply ST in Q. destruct Q as [Q|(-> & _)]; [|lia].
    destruct (o_last o1) as [l|]; [|exfalso; exact (G t Q)]. destruct G as (_ & G1 & G2). specialize (G2 t Q). lia.
  - assert (NS : forall t, starts tr' (o_addr o1) t -> starts tr (o_addr o1) t) by (intros t Q; apply ST in Q; destruct Q as [Q|(_ & o2 & J & E2 & D2)]; [exact Q|]; rewrite (nodup_addr _ _ _ D J I E2) in D2; congruence).
    destruct (o_last o1) as [l|].
    + destruct G as (G0 & G1 & G2). split; [apply ST; now left|]. split; [lia|]. intros t Q. apply G2, NS, Q.
    + intros t Q. exact (G t (NS t Q)).
Qed.
Lemma good_run es : forall s tr bound l0, NoDup (map fst (static l0)) -> good s tr bound l0 -> Forall same_list es -> clock bound es -> good (fst (arun s es)) (tr ++ snd (arun s es)) (last_turn bound es) l0.
Proof.
  induction es as [|e es IH]; intros s tr bound l0 D G F C; cbn [arun last_turn]; [cbn [fst snd]; now rewrite app_nil_r|].
  apply Forall_cons_iff in F. destruct F as (F1 & F2). destruct e as [l| |now]; try contradiction. destruct C as (C1 & C2).
  assert (Q := good_turn s tr bound l0 now D G C1). destruct (astep s (ATurn now)) as [s1 o1]. cbn [fst snd] in Q. specialize (IH s1 _ _ _ D Q F2 C2). destruct (arun s1 es) as [s2 o2]. cbn [fst snd] in *. now rewrite app_assoc.
Qed.
(* C115: a turn of the loop checks exactly the listed addresses that have not been
   checked within their interval *)
Theorem C115_due l es s tr now : NoDup (map o_addr l) -> (forall o, In o l -> o_last o = None) -> Forall same_list es -> clock 0 es -> last_turn 0 es <= now -> arun (act0 l) es = (s, tr) ->
  forall a, starts (snd (astep s (ATurn now))) a now <-> exists o, In o l /\ o_addr o = a /\ forall t, starts tr a t -> o_every o < now - t.
Proof.
  intros D Z F C L H a. assert (D' : NoDup (map fst (static l))) by (unfold static; rewrite map_map; exact D).
  assert (G : good (act0 l) [] 0 l) by (split; try reflexivity; intros o I; unfold tracks; rewrite (Z o I); intros t []).
  apply (good_run es _ _ _ _ D') in G; [|exact F|exact C]. rewrite H in G. cbn [fst snd app] in G. destruct G as [A B E O G].
  cbn [astep]. rewrite O, B, E. cbn [turn fst snd]. assert (ST := starts_turn now (a_list s) [] a now (match map (fun o => if due now o then One (o_addr o) (o_every o) (Some now) else o) (a_list s) with [] => 60 | _ => 1 end)). cbn [app] in ST.
  unfold turn. cbn [fst snd]. rewrite ST. clear ST.
  assert (BACK : forall o, In o (a_list s) -> exists o', In o' l /\ o_addr o' = o_addr o /\ o_every o' = o_every o).
  { intros o I. assert (J : In (o_addr o, o_every o) (static l)) by (rewrite <- A; unfold static; apply (in_map (fun o => (o_addr o, o_every o))), I). unfold static in J. apply in_map_iff in J. destruct J as (o' & Q & J). injection Q as Q1 Q2. exists o'. auto. }
  assert (FORTH : forall o, In o l -> exists o', In o' (a_list s) /\ o_addr o' = o_addr o /\ o_every o' = o_every o).
  { intros o I. assert (J : In (o_addr o, o_every o) (static (a_list s))) by (rewrite A; unfold static; apply (in_map (fun o => (o_addr o, o_every o))), I). unfold static in J. apply in_map_iff in J. destruct J as (o' & Q & J). injection Q as Q1 Q2. exists o'. auto. }
  assert (DUE : forall o, In o (a_list s) -> (due now o = true <-> forall t, starts tr (o_addr o) t -> o_every o < now - t)).
  { intros o I. specialize (G o I). unfold tracks, due in *. destruct (o_last o) as [x|].
    - rewrite N.ltb_lt. destruct G as (G0 & G1 & G2). split; [intros Q t S; specialize (G2 t S); lia|intro Q; exact (Q x G0)].
    - split; [intros _ t S; exfalso; exact (G t S)|reflexivity]. }
  split.
  - intros [[]|(_ & o & I & <- & Q)]. destruct (BACK o I) as (o' & I' & E1 & E2). exists o'. split; [exact I'|]. split; [exact E1|]. rewrite E2. apply DUE; assumption.
  - intros (o & I & <- & Q). destruct (FORTH o I) as (o' & I' & E1 & E2). right. split; [reflexivity|]. exists o'. split; [exact I'|]. split; [exact E1|]. apply DUE; [exact I'|]. rewrite E1, E2. exact Q.
Qed.
Example C115_demo : let l := [One [1] second None; One [2] second None] in
  snd (arun (act0 l) [ATurn 5; ATurn (second + 4); ATurn (second + 6)]) = [AStart 5 [1]; AStart 5 [2]; ASleep 1; ASleep 1; AStart (second + 6) [1]; AStart (second + 6) [2]; ASleep 1].
Proof. reflexivity. Qed.

(* C115: of the backends of a configuration, a turn of the loop checks exactly those that
   have not been checked for a second *)
Theorem C115_backends http stream es s tr now : Forall same_list es -> clock 0 es -> last_turn 0 es <= now -> arun (act0 (checks http stream)) es = (s, tr) ->
  forall a, starts (snd (astep s (ATurn now))) a now <-> (backend http a \/ backend stream a) /\ forall t, starts tr a t -> 1000000000 < now - t.
Proof.
  intros F C L E a. destruct (C47_targets http stream) as (ND & T).
  assert (Q := C115_due (checks http stream) es s tr now). unfold checks in *. rewrite map_map in Q. cbn [o_addr] in Q. rewrite map_id in Q.
  rewrite (Q ND); [|intros o I; apply in_map_iff in I; destruct I as (x & <- & _); reflexivity|assumption|assumption|assumption|exact E]. rewrite <- T. split.
  - intros (o & I & <- & H). apply in_map_iff in I. destruct I as (x & <- & I). auto.
  - intros (I & H). exists (One a check_every None). split; [apply in_map_iff; eauto|]. split; [reflexivity|exact H].
Qed.
(* C115: a new list that is taken replaces the old one: from the next turn on everything is
   as if the checks had been started with it *)
Theorem C115_new_list s l now es : a_new s = None -> a_gone s = false -> a_over s = false ->
  arun s (AList l :: ATurn now :: es) = arun (act0 l) (ATurn now :: es).
Proof. intros N G O. destruct s as [old n g o]. cbn in N, G, O. subst.
  cbn [arun astep act0 a_list a_new a_gone a_over]. destruct (turn now l) as [l' cs]. destruct (arun _ es). reflexivity.
Qed.
Example C115_new_demo : let s := fst (arun (act0 [One [1] second None]) [ATurn 5]) in
  a_new s = None /\ a_gone s = false /\ a_over s = false /\ snd (arun s [AList [One [2] second None]; ATurn (second + 6)]) = [AStart (second + 6) [2]; ASleep 1].
Proof. repeat split. Qed.

(* C115: once nobody can send lists any more, the list that still lies in the channel is
   taken by one turn, and no later turn starts a check *)
Theorem C115_ends s t1 t2 es a t : ~ starts (snd (arun (fst (arun s [AGone; ATurn t1])) (ATurn t2 :: es))) a t.
Proof.
  assert (K : forall es s, a_over s = true \/ a_gone s = true /\ a_new s = None -> ~ starts (snd (arun s es)) a t).
  { clear. induction es as [|e es IH]; intros [l n g o] I H; [destruct H|]. cbn [arun] in H.
    destruct (astep (Act l n g o) e) as [s1 o1] eqn:E. destruct (arun s1 es) as [s2 o2] eqn:R. cbn [snd] in H.
    assert (Q : (a_over s1 = true \/ a_gone s1 = true /\ a_new s1 = None) /\ ~ starts o1 a t).
    { cbn [a_over a_gone a_new] in I. destruct e as [l'| |now]; cbn [astep a_list a_new a_gone a_over] in E.
      - destruct n as [n|]; injection E as <- <-; (split; [cbn; destruct I as [I|[I J]]; [now left|right; rewrite ?I; split; congruence]|intros []]).
      - injection E as <- <-. split; [cbn; tauto|intros []].
      - destruct o; [injection E as <- <-; split; [now left|intros []]|]. destruct I as [I|[-> ->]]; [discriminate I|].
        injection E as <- <-. split; [now left|]. intros [Q|[]]. discriminate Q. }
    destruct Q as [Q1 Q2]. unfold starts in H. apply in_app_iff in H. destruct H as [H|H]; [exact (Q2 H)|].
    apply (IH s1 Q1). unfold starts. rewrite R. exact H. }
  apply K. destruct s as [l n g o]. cbn [arun astep a_list a_new a_gone a_over]. destruct o; [now left|].
  destruct n as [n|]; [destruct (turn t1 n); right; split; reflexivity|now left].
Qed.
Example C115_ends_demo : let s := fst (arun (act0 [One [1] second None]) [ATurn 5; AList [One [2] second None]]) in
  snd (arun s [AGone; ATurn 6]) = [AStart 6 [2]; ASleep 1] /\ snd (arun (fst (arun s [AGone; ATurn 6])) [ATurn (second + 9)]) = [AEnd].
Proof. split; reflexivity. Qed.

(* C115: and the requests of the checks to one address are further apart than the interval
   asked for, whatever else happens to the records in between *)
Lemma probe_kept t os : forall h a, Forall (fun o => t <= hop_time o) os -> (exists v q, lookup leqb a (c_map h) = Some v /\ h_request v = Some q /\ t <= q) ->
  exists v q, lookup leqb a (c_map (hrun h os)) = Some v /\ h_request v = Some q /\ t <= q.
Proof.
  unfold hrun. induction os as [|o os IH]; intros h a F H; [exact H|]. apply Forall_cons_iff in F. destruct F as (F1 & F2). cbn [fold_left]. apply IH; [exact F2|]. clear IH F2 os.
  destruct H as (v & q & L & R & Q). destruct o as [b n|b n|b d n]; cbn [hstep hop_time] in *.
  - unfold add_fall_down. destruct (lookup leqb b (c_map h)) as [w|] eqn:B; cbn [set_map c_map].
    + destruct (leqb b a) eqn:E.
      * apply leqb_ok in E. subst b. rewrite (lookup_insert_eq leqb leqb_ok). eexists. exists q. split; [reflexivity|]. cbn [h_request]. rewrite L in B. injection B as <-. destruct (h_timeout v <? n - h_record v); auto.
      * rewrite (lookup_insert_ne leqb leqb_ok) by (intro Z; rewrite Z, (proj2 (leqb_ok _ _) eq_refl) in E; discriminate E). eauto.
    + destruct (leqb b a) eqn:E; [apply leqb_ok in E; subst; congruence|]. rewrite (lookup_insert_ne leqb leqb_ok) by (intro Z; rewrite Z, (proj2 (leqb_ok _ _) eq_refl) in E; discriminate E). eauto.
  - unfold add_rise_up. destruct (lookup leqb b (c_map h)) as [w|] eqn:B; cbn [set_map c_map].
    + destruct (leqb b a) eqn:E.
      * apply leqb_ok in E. subst b. rewrite (lookup_insert_eq leqb leqb_ok). eexists. exists q. split; [reflexivity|]. cbn [h_request]. rewrite L in B. injection B as <-. destruct (h_timeout v <? n - h_record v); auto.
      * rewrite (lookup_insert_ne leqb leqb_ok) by (intro Z; rewrite Z, (proj2 (leqb_ok _ _) eq_refl) in E; discriminate E). eauto.
    + destruct (leqb b a) eqn:E; [apply leqb_ok in E; subst; congruence|]. rewrite (lookup_insert_ne leqb leqb_ok) by (intro Z; rewrite Z, (proj2 (leqb_ok _ _) eq_refl) in E; discriminate E). eauto.
  - unfold check_can_request. destruct (lookup leqb b (c_map h)) as [w|] eqn:B; cbn [snd set_map c_map].
    + destruct (match h_request w with Some ins => d <? n - ins | None => true end); [|eauto]. cbn [set_map c_map]. destruct (leqb b a) eqn:E.
      * apply leqb_ok in E. subst b. rewrite (lookup_insert_eq leqb leqb_ok). eexists. exists n. split; [reflexivity|]. auto.
      * rewrite (lookup_insert_ne leqb leqb_ok) by (intro Z; rewrite Z, (proj2 (leqb_ok _ _) eq_refl) in E; discriminate E). eauto.
    + destruct (leqb b a) eqn:E; [apply leqb_ok in E; subst; congruence|]. rewrite (lookup_insert_ne leqb leqb_ok) by (intro Z; rewrite Z, (proj2 (leqb_ok _ _) eq_refl) in E; discriminate E). eauto.
Qed.
Theorem C115_spacing h a d1 t1 d2 t2 os : fst (check_can_request a d1 t1 h) = true -> Forall (fun o => t1 <= hop_time o) os ->
  fst (check_can_request a d2 t2 (hrun (snd (check_can_request a d1 t1 h)) os)) = true -> d2 < t2 - t1.
Proof.
  intros H F P. destruct (probe_kept t1 os (snd (check_can_request a d1 t1 h)) a F) as (v & q & L & R & Q).
  - unfold check_can_request in *. destruct (lookup leqb a (c_map h)) as [v|]; cbn [fst snd] in *.
    + rewrite H. cbn [set_map c_map]. rewrite (lookup_insert_eq leqb leqb_ok). eexists. exists t1. split; [reflexivity|]. split; [reflexivity|lia].
    + cbn [set_map c_map]. rewrite (lookup_insert_eq leqb leqb_ok). eexists. exists t1. split; [reflexivity|]. split; [reflexivity|lia].
  - unfold check_can_request in P at 1. rewrite L, R in P. cbn [fst] in P. apply N.ltb_lt in P. lia.
Qed.
Example C115_spacing_demo : let h := hcheck_new 30 3 2 in
  fst (check_can_request [1] second 5 h) = true /\ fst (check_can_request [1] second (second + 6) (hrun (snd (check_can_request [1] second 5 h)) [HFail [1] 7])) = true /\
  fst (check_can_request [1] second (second + 5) (hrun (snd (check_can_request [1] second 5 h)) [HFail [1] 7])) = false.
Proof. repeat split. Qed.

Print Assumptions C47_targets.
Print Assumptions C115_due.
Print Assumptions C115_backends.
Print Assumptions C115_spacing.
Print Assumptions C115_new_list.
Print Assumptions C115_ends.
