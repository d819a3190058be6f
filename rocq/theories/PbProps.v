(* C149-C151: active checks and what they do to a backend. *)
From Coq Require Import Lia.
From Coq Require Import String.
From Verif Require Import Base Text TextOps ConfModel HealthModel HealthSpec HealthProofs PbModel PbSpec.
Open Scope N_scope.

Lemma is_http_ok m : is_http m = true <-> http_method m.
Proof.
  unfold is_http, http_method. rewrite leqb_ok. assert (G : forall w, Forall (fun d => 97 <= d <= 122) w -> forall s, map lower s = w <-> Forall2 (fun c d => c = d \/ c + 32 = d) s w).
  { induction 1 as [|d w D W IH]; intros [|c s]; cbn [map]; split; intros H; try discriminate; try (inversion H; fail); try constructor.
    - injection H as H _. unfold lower in H. destruct (N.leb_spec 65 c), (N.leb_spec c 90); cbn [andb] in H; lia.
    - injection H as _ H. apply IH. exact H.
    - inversion H as [|? ? ? ? H1 H2]; subst. f_equal; [|apply IH; exact H2]. unfold lower. destruct (N.leb_spec 65 c), (N.leb_spec c 90); cbn [andb]; lia. }
  apply G. change (txt "http") with [104; 116; 116; 112]. repeat constructor; lia.
Qed.
Lemma limit_ok m every took : took <= time_limit m every <-> within m every took.
Proof.
  unfold time_limit, within. rewrite <- is_http_ok. destruct (is_http m); split.
  - intro H. split; [auto|]. intro N0. exfalso. now apply N0.
  - intros (A & _). auto.
  - intro H. split; [discriminate|auto].
  - intros (_ & B). apply B. discriminate.
Qed.
Lemma verdict_ok m every o : verdict m every o = true <-> passed m every o.
Proof.
  unfold verdict, passed. destruct o as [[took r]|]; cycle 1.
  { split; [discriminate|]. intros (? & ? & E & _). discriminate. }
  destruct (took <=? time_limit m every) eqn:L.
  - apply N.leb_le in L. destruct r as [s|].
    + split.
      * intro H. exists took, s. split; [reflexivity|]. split; [now apply limit_ok|]. intro M. apply is_http_ok in M. rewrite M in H. unfold server_error in H.
        apply negb_true_iff, andb_false_iff in H. rewrite N.leb_gt, N.ltb_ge in H. exact H.
      * intros (t & x & E & _ & H). injection E as <- <-. destruct (is_http m) eqn:M; [|reflexivity]. apply is_http_ok in M. unfold server_error. apply negb_true_iff, andb_false_iff. rewrite N.leb_gt, N.ltb_ge. auto.
    + split; [discriminate|]. intros (? & ? & E & _). discriminate.
  - apply N.leb_gt in L. split; [discriminate|]. intros (t & x & E & W & _). injection E as -> _. apply limit_ok in W. lia.
Qed.

Lemma prun_app es : forall s es', prun s (es ++ es') = let (s1, o1) := prun s es in let (s2, o2) := prun s1 es' in (s2, o1 ++ o2).
Proof.
  induction es as [|e es IH]; intros s es'; cbn [prun app]; [destruct (prun s es'); reflexivity|].
  destruct (pstep s e) as [s1 o1]. rewrite IH. destruct (prun s1 es) as [s2 o2]. destruct (prun s2 es') as [s3 o3]. now rewrite app_assoc.
Qed.
Lemma calls_app a b : calls (a ++ b) = calls a ++ calls b. Proof. apply flat_map_app. Qed.
(* the table is that of the calls made *)
Lemma step_calls s e : p_h (fst (pstep s e)) = hrun (p_h s) (calls (snd (pstep s e))).
Proof.
  destruct e as [i a m every o now|i now|good a now]; cbn [pstep].
  - destruct (check_can_request a every now (p_h s)) as [can h] eqn:E. destruct can; cbn [fst snd p_h calls flat_map app]; unfold hrun; cbn [fold_left hstep]; now rewrite E.
  - destruct (lookup N.eqb i (p_open s)) as [[a good]|]; [|reflexivity]. destruct good; reflexivity.
  - destruct good; reflexivity.
Qed.
Lemma run_calls es : forall s, p_h (fst (prun s es)) = hrun (p_h s) (calls (snd (prun s es))).
Proof.
  induction es as [|e es IH]; intro s; [reflexivity|]. cbn [prun]. assert (Q := step_calls s e). destruct (pstep s e) as [s1 o1]. specialize (IH s1).
  destruct (prun s1 es) as [s2 o2]. cbn [fst snd] in *. rewrite calls_app. unfold hrun in *. rewrite fold_left_app, <- Q. exact IH.
Qed.
Lemma results_calls a tr : results a (calls tr) = counted a tr.
Proof.
  unfold counted. induction tr as [|x tr IH]; [reflexivity|]. cbn [calls flat_map]. fold (calls tr). rewrite results_app, IH, rev_app_distr. f_equal.
  destruct x as [i b m every o now|b every now|i b good now]; [| |destruct good]; cbn [results hop_addr app rev]; destruct (leqb b a); reflexivity.
Qed.
(* the checks under way are those sent and not yet counted *)
Definition sent_with (tr : list pout) i a good : Prop := exists m every o now, In (PSent i a m every o now) tr /\ good = verdict m every o.
Lemma open_run es : forall s tr, (forall i a good, lookup N.eqb i (p_open s) = Some (a, good) -> sent_with tr i a good) ->
  (forall i a good now, In (PCount (Some i) a good now) (snd (prun s es)) -> sent_with (tr ++ snd (prun s es)) i a good).
Proof.
  induction es as [|e es IH]; intros s tr H i a good now I; [destruct I|]. cbn [prun] in *.
  assert (K : (forall i a good, lookup N.eqb i (p_open (fst (pstep s e))) = Some (a, good) -> sent_with (tr ++ snd (pstep s e)) i a good) /\
              (forall i a good now, In (PCount (Some i) a good now) (snd (pstep s e)) -> sent_with tr i a good)).
  { assert (W : forall i a good x, sent_with tr i a good -> sent_with (tr ++ x) i a good) by (intros i' a' g' x (m & ev & o & n & J & E); exists m, ev, o, n; split; [apply in_app_iff; now left|exact E]).
    destruct e as [j b m every o n|j n|g b n]; cbn [pstep].
    - destruct (check_can_request b every n (p_h s)) as [can h]. destruct can; cbn [fst snd p_open].
      + split; [|intros ? ? ? ? [E|[]]; discriminate]. intros i' a' g' L. cbn [lookup] in L. destruct (N.eqb i' j) eqn:Q; [|apply W, H, L].
        apply N.eqb_eq in Q. subst j. injection L as <- <-. exists m, every, o, n. split; [apply in_app_iff; right; now left|reflexivity].
      + split; [|intros ? ? ? ? [E|[]]; discriminate]. intros i' a' g' L. apply W, H, L.
    - destruct (lookup N.eqb j (p_open s)) as [[b g]|] eqn:L; cbn [fst snd p_open].
      + split.
        * intros i' a' g' L'. apply W, H. destruct (N.eqb i' j) eqn:Q.
          -- apply N.eqb_eq in Q. subst j. rewrite (lookup_remove_eq N.eqb) in L'. discriminate.
          -- apply N.eqb_neq in Q. rewrite (lookup_remove_ne N.eqb N.eqb_eq) in L' by congruence. exact L'.
        * intros i' a' g' n' [E|[]]. injection E as <- <- <- _. apply H, L.
      + split; [intros i' a' g' L'; apply W, H, L'|intros ? ? ? ? []].
    - split; [intros i' a' g' L'; apply W, H, L'|]. intros ? ? ? ? [E|[]]. discriminate. }
  destruct (pstep s e) as [s1 o1]. cbn [fst snd] in K. destruct K as (K1 & K2). specialize (IH s1 (tr ++ o1) K1 i a good now).
  destruct (prun s1 es) as [s2 o2]. cbn [fst snd] in *. rewrite <- app_assoc in IH. apply in_app_iff in I. destruct I as [I|I]; [|auto].
  destruct (K2 _ _ _ _ I) as (m & ev & o & n & J & E). exists m, ev, o, n. split; [apply in_app_iff; now left|exact E].
Qed.

Section Props.
  Context (T max min : N).
  Notation run es := (prun (pst0 T max min) es).

  (* C149: what a check counts is what its request met: a success exactly when the backend
     answered in time and, checked by http, not with a server error *)
  Theorem C149_counts es s tr i a good now : run es = (s, tr) -> In (PCount (Some i) a good now) tr ->
    exists m every o sent, In (PSent i a m every o sent) tr /\ (good = true <-> passed m every o).
  Proof.
    intros E I. assert (Q := open_run es (pst0 T max min) [] ltac:(intros ? ? ? L; discriminate L) i a good now). rewrite E in Q. cbn [snd app] in Q.
    destruct (Q I) as (m & every & o & sent & J & ->). exists m, every, o, sent. split; [exact J|apply verdict_ok].
  Qed.
  (* and the backend is down exactly when the results counted, of checks and of forwarding
     together, say so *)
  Theorem C149_down es s tr a now : 2 <= max -> 1 <= min -> run es = (s, tr) ->
    (is_fall_down a now (p_h s) = true <-> down max min (remembered T a tr) now (counted a tr)).
  Proof.
    intros A B E. assert (Q := run_calls es (pst0 T max min)). rewrite E in Q. cbn [fst snd pst0 p_h] in Q. rewrite Q, health_spec by assumption.
    rewrite results_calls. reflexivity.
  Qed.

  (* C150, full statement: a backend that fails its checks is taken out.  Proved when nothing
     else is counted for it in between: after max failures in a row without a long pause it
     is down, *)
  Theorem C150_taken_out_partial es s tr a now newest older : 2 <= max -> 1 <= min -> run es = (s, tr) ->
    counted a tr = newest ++ older -> nlen newest = max -> all_failed newest -> nogap (remembered T a tr) now newest ->
    is_fall_down a now (p_h s) = true.
  Proof.
    intros A B E C L F G. apply (C149_down es s tr a now A B E). exists [], newest, older. split; [exact C|]. split; [exact L|]. split; [exact F|]. split; [exact G|apply good_run_nil, B].
  Qed.
  (* and after min successes in a row it is back *)
  Theorem C150_back es s tr a now newest older : 2 <= max -> 1 <= min -> run es = (s, tr) ->
    counted a tr = newest ++ older -> nlen newest = min -> all_good newest -> is_fall_down a now (p_h s) = false.
  Proof.
    intros A B E C L F. destruct (is_fall_down a now (p_h s)) eqn:D; [|reflexivity]. exfalso. apply (C149_down es s tr a now A B E) in D.
    destruct D as (n & r & o & Q & LR & FR & G & NG). rewrite C in Q. apply app_eq_app in Q. destruct Q as (x & [[Q1 Q2]|[Q1 Q2]]).
    - (* the successes reach into the run of failures, or end with newer *)
      destruct x as [|y x].
      + rewrite app_nil_r in Q1. subst newest. apply NG. exists [], n, []. split; [now rewrite app_nil_r|]. split; [exact L|exact F].
      + assert (Y : In y newest) by (rewrite Q1; apply in_app_iff; right; now left). unfold all_good in F. rewrite Forall_forall in F. specialize (F y Y).
        destruct r as [|z r]; [rewrite nlen_nil in LR; lia|]. cbn [app] in Q2. injection Q2 as -> _. unfold all_failed in FR. apply Forall_inv in FR. congruence.
    - apply NG. exists [], newest, x. cbn [app]. split; [exact Q1|]. split; [exact L|exact F].
  Qed.
  (* false of the code otherwise: a backend all of whose checks fail is never taken out if
     between any two of the failures a connection to it was made, which counts as a success
     of the same kind *)
  Lemma twice_split l1 : forall l2, never_twice (l1 ++ l2) -> never_twice l2.
  Proof.
    induction l1 as [|[b t] l1 IH]; intros l2 H; [exact H|]. apply IH. cbn [app never_twice] in H. destruct b; [|exact H]. destruct (l1 ++ l2) as [|[[] ?] ?]; [exact I|contradiction|exact H].
  Qed.
  Theorem C150_traffic_refuted es s tr a now : 2 <= max -> 1 <= min -> run es = (s, tr) -> never_twice (counted a tr) -> is_fall_down a now (p_h s) = false.
  Proof.
    intros A B E V. destruct (is_fall_down a now (p_h s)) eqn:D; [|reflexivity]. exfalso. apply (C149_down es s tr a now A B E) in D.
    destruct D as (n & r & o & Q & LR & FR & _). rewrite Q in V. apply twice_split in V. destruct r as [|[x t] [|[y u] r]]; [rewrite nlen_nil in LR; lia| |].
    - rewrite nlen_cons, nlen_nil in LR. lia.
    - unfold all_failed in FR. assert (X := Forall_inv FR). assert (Y := Forall_inv (Forall_inv_tail FR)). cbn in X, Y. subst. cbn [app never_twice] in V. exact V.
  Qed.

  (* C151, full statement: a check with the method tcp passes if a TCP connection can be
     made.  False of the code: without an answer of HTTP the check fails, whatever the
     backend does; and with one it passes even if that is a server error. *)
  Theorem C151_no_http_refuted es s tr i a good now : run es = (s, tr) -> In (PCount (Some i) a good now) tr ->
    (forall m every o sent, In (PSent i a m every o sent) tr -> forall took st, o <> Some (took, Status st)) -> good = false.
  Proof.
    intros E I H. destruct (C149_counts es s tr i a good now E I) as (m & every & o & sent & J & K). destruct good; [|reflexivity]. exfalso.
    destruct (proj1 K eq_refl) as (took & st & Q & _). exact (H m every o sent J took st Q).
  Qed.
  Theorem C151_server_error_refuted m every took st : ~ http_method m -> took <= 3 * second -> passed m every (Some (took, Status st)).
  Proof. intros M L. exists took, st. split; [reflexivity|]. split; [split; [intro; contradiction|auto]|intro; contradiction]. Qed.
End Props.

(* a backend whose checks meet status 500: down after three, not down if connections were made in between *)
Definition probe i t := [PCheck i [1] (txt "http") second (Some (5, Status 500)) t; PDone i (t + 5)].
Example C149_demo : let es := probe 1 second ++ probe 2 (3 * second) ++ probe 3 (5 * second) in
  is_fall_down [1] (6 * second) (p_h (fst (prun (pst0 60 3 2) es))) = true /\
  counted [1] (snd (prun (pst0 60 3 2) es)) = [(true, 5 * second + 5); (true, 3 * second + 5); (true, second + 5)] /\
  remembered 60 [1] (snd (prun (pst0 60 3 2) es)) = 30 * second.
Proof. vm_compute. repeat split. Qed.
Example C150_demo : let es := probe 1 second ++ [PTraffic true [1] (2 * second)] ++ probe 2 (3 * second) ++ [PTraffic true [1] (4 * second)] ++ probe 3 (5 * second) in
  never_twice (counted [1] (snd (prun (pst0 60 3 2) es))) /\ length (counted [1] (snd (prun (pst0 60 3 2) es))) = 5%nat.
Proof. vm_compute. repeat split. Qed.
Example C150_back_demo : let es := probe 1 second ++ probe 2 (3 * second) ++ probe 3 (5 * second) ++ [PTraffic true [1] (6 * second); PTraffic true [1] (7 * second)] in
  exists newest older, counted [1] (snd (prun (pst0 60 3 2) es)) = newest ++ older /\ nlen newest = 2 /\ all_good newest /\ all_failed older /\ length older = 3%nat.
Proof. exists [(false, 7 * second); (false, 6 * second)]. eexists. split; [vm_compute; reflexivity|]. split; [reflexivity|]. split; [repeat constructor|]. split; [repeat constructor|reflexivity]. Qed.
Example C151_demo : snd (prun (pst0 60 3 2) [PCheck 1 [1] (txt "tcp") second (Some (1, NoAnswer)) 0; PDone 1 1; PCheck 2 [2] (txt "tcp") second (Some (1, Status 502)) 0; PDone 2 1]) =
  [PSent 1 [1] (txt "tcp") second (Some (1, NoAnswer)) 0; PCount (Some 1) [1] false 1; PSent 2 [2] (txt "tcp") second (Some (1, Status 502)) 0; PCount (Some 2) [2] true 1].
Proof. reflexivity. Qed.

Print Assumptions C149_counts.
Print Assumptions C149_down.
Print Assumptions C150_taken_out_partial.
Print Assumptions C150_back.
Print Assumptions C150_traffic_refuted.
Print Assumptions C151_no_http_refuted.
Print Assumptions C151_server_error_refuted.
