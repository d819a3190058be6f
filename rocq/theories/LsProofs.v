(* Proofs about log files. *)
From Coq Require Import String.
From Verif Require Import Base Text TextOps AddrModel ConfModel CxSpec GxSpec GxProofs RouteModel InhModel InhProofs LsModel LsSpec.
Open Scope N_scope.

Lemma first_blank (s : text) : no_char 32 s = true \/ exists a b, s = a ++ 32 :: b /\ no_char 32 a = true.
Proof.
  induction s as [|c s IH]; [left; reflexivity|]. cbn [no_char forallb]. destruct (N.eqb_spec c 32) as [->|E].
  - right. exists [], s. split; reflexivity.
  - destruct IH as [H|(a & b & -> & H)]; [left; exact H|]. right. exists (c :: a), b. split; [reflexivity|].
    cbn [no_char forallb]. apply N.eqb_neq in E. rewrite E. exact H.
Qed.
Lemma level_said w x : (level_name w x \/ x = LInfo /\ (forall l, ~ level_name w l)) <-> match parse_level w with Some y => y | None => LInfo end = x.
Proof.
  destruct (parse_level w) as [y|] eqn:E.
  - assert (Y := proj2 (level_name_iff w y) E). split.
    + intros [H|[_ H]]; [apply level_name_iff in H; congruence|exfalso; exact (H y Y)].
    + intros <-. now left.
  - split.
    + intros [H|[-> _]]; [apply level_name_iff in H; congruence|reflexivity].
    + intros <-. right. split; [reflexivity|]. intros l H. apply level_name_iff in H. congruence.
Qed.
Lemma entry_file v p x : entry v p x <-> log_file v = (p, x).
Proof.
  split.
  - intros [q H|q w r y H1 H2 [->|[t ->]] L]; unfold log_file; try (apply level_said in L; subst y).
    + rewrite split_on_one by exact H. reflexivity.
    + rewrite app_nil_r, split_on_app by exact H1. rewrite split_on_one by exact H2. reflexivity.
    + rewrite split_on_app by exact H1. rewrite split_on_app by exact H2. reflexivity.
  - unfold log_file. destruct (first_blank v) as [H|(a & b & -> & H)].
    + rewrite split_on_one by exact H. intros [= <- <-]. constructor. exact H.
    + rewrite split_on_app by exact H. destruct (first_blank b) as [Hb|(w & r & -> & Hb)].
      * rewrite split_on_one by exact Hb. intros [= <- E]. rewrite <- (app_nil_r b). constructor; [exact H|exact Hb|left; reflexivity|apply level_said; exact E].
      * rewrite split_on_app by exact Hb. intros [= <- E]. constructor; [exact H|exact Hb|right; eexists; reflexivity|apply level_said; exact E].
Qed.
Lemma passes_ok l m : passes l (Some m) = true <-> at_least m l.
Proof.
  split.
  - destruct l, m; cbn; intros H; try discriminate; solve [constructor | constructor; cbn; auto].
  - intros H. inversion H as [| |l0 I|l0 I|]; subst; try solve [destruct l; reflexivity | reflexivity];
      cbn in I; repeat destruct I as [<-|I]; try reflexivity; destruct I.
Qed.

(* ---- the names ---- *)
Section Names.
  Context {V : Type}.
  Lemma all_commons_ok (h : ihttp (V := V)) c : In c (all_commons h) <-> setting_of h c.
  Proof.
    unfold all_commons. split.
    - intros [<-|I]; [constructor|]. apply in_flat_map in I as (s & Is & [<-|I]); [constructor; exact Is|].
      apply in_map_iff in I as (l & <- & Il). econstructor; eassumption.
    - intros [|s Is|s l Is Il]; [left; reflexivity| |]; right; apply in_flat_map; exists s; (split; [exact Is|]); [left; reflexivity|].
      right. apply in_map. exact Il.
  Qed.
  Lemma names_fold n (cs : list (common (V := V))) : forall names,
    lookup leqb n (fold_left add_names cs names) =
    match lookup leqb n names with Some v => Some v | None => lookup leqb n (fold_left add_names cs []) end.
  Proof.
    induction cs as [|c cs IH]; intros names; [cbn; destruct (lookup leqb n names); reflexivity|]. cbn [fold_left].
    rewrite IH, (IH (add_names [] c)). unfold add_names. rewrite !lookup_under. cbn [lookup].
    destruct (lookup leqb n names); [reflexivity|]. reflexivity.
  Qed.
  Lemma names_cons n (c : common (V := V)) cs :
    lookup leqb n (fold_left add_names (c :: cs) []) =
    match lookup leqb n (c_log_names c) with Some v => Some v | None => lookup leqb n (fold_left add_names cs []) end.
  Proof. cbn [fold_left]. rewrite names_fold. unfold add_names at 1. rewrite lookup_under. reflexivity. Qed.
  Lemma names_first n v (cs : list (common (V := V))) : lookup leqb n (fold_left add_names cs []) = Some v <-> first_defined cs n v.
  Proof.
    induction cs as [|c cs IH].
    - split; [discriminate|]. intros (pre & c & post & E & _). destruct pre; discriminate.
    - rewrite names_cons. destruct (lookup leqb n (c_log_names c)) as [u|] eqn:E.
      + split.
        * intros [= ->]. exists [], c, cs. split; [reflexivity|]. split; [exact E|]. intros x [].
        * intros (pre & c' & post & Eq & L & F). destruct pre as [|d pre].
          -- injection Eq as <- <-. congruence.
          -- injection Eq as <- _. rewrite (F c (or_introl eq_refl)) in E. discriminate.
      + rewrite IH. split.
        * intros (pre & c' & post & -> & L & F). exists (c :: pre), c', post. split; [reflexivity|]. split; [exact L|].
          intros x [<-|I]; [exact E|exact (F x I)].
        * intros (pre & c' & post & Eq & L & F). destruct pre as [|d pre].
          -- injection Eq as <- <-. congruence.
          -- injection Eq as <- ->. exists pre, c', post. split; [reflexivity|]. split; [exact L|]. intros x I. apply F. right. exact I.
  Qed.
End Names.

(* ---- set-up ---- *)
Section SetUp.
  Context (can_open valid_name : text -> bool).
  Lemma loggers_ok names : forall ls, loggers can_open names = Ok ls ->
    ls = map (fun e => (fst e, log_file (snd e))) names /\ Forall (fun e => can_open (fst (log_file (snd e))) = true) names.
  Proof.
    induction names as [|[n v] names IH]; intros ls; cbn [loggers]; [intros [= <-]; split; [reflexivity|constructor]|].
    destruct (can_open (fst (log_file v))) eqn:E; [|discriminate]. destruct (loggers can_open names) as [l| |]; cbn; try discriminate.
    intros [= <-]. destruct (IH l eq_refl) as [-> F]. split; [reflexivity|]. constructor; [exact E|exact F].
  Qed.
  Lemma loggers_panics names : (exists ls, loggers can_open names = Ok ls) \/ loggers can_open names = Panic.
  Proof.
    induction names as [|[n v] names IH]; cbn [loggers]; [left; eexists; reflexivity|].
    destruct (can_open _); [|right; reflexivity]. destruct IH as [[l ->]| ->]; [left; eexists; reflexivity|right; reflexivity].
  Qed.
  Lemma loggers_all names : Forall (fun e => can_open (fst (log_file (snd e))) = true) names ->
    loggers can_open names = Ok (map (fun e => (fst e, log_file (snd e))) names).
  Proof.
    induction names as [|[n v] names IH]; intros F; [reflexivity|]. inversion F as [|? ? F1 F2]; subst. cbn [loggers map fst snd] in *.
    rewrite F1, (IH F2). reflexivity.
  Qed.
  Lemma lookup_entries n (names : tmap text) : lookup leqb n (map (fun e => (fst e, log_file (snd e))) names) = option_map log_file (lookup leqb n names).
  Proof. induction names as [|[k v] names IH]; [reflexivity|]. cbn [map lookup fst snd]. destruct (leqb n k); [reflexivity|exact IH]. Qed.
  Lemma init_ok names ns lvl cfg : init_log can_open valid_name names ns lvl = Ok cfg ->
    g_loggers cfg = map (fun e => (fst e, log_file (snd e))) names /\
    g_level cfg = (match lvl with Some f => f | None => Some LTrace end) /\
    g_root cfg = (match lookup leqb (txt "default") names with Some v => [File (fst (log_file v))] | None => [] end) ++ (if ns then [] else [Stdout]).
  Proof.
    unfold init_log. destruct (loggers can_open names) as [l| |] eqn:E; try discriminate. cbn [rbind]. destruct (loggers_ok _ _ E) as [-> _].
    destruct (_ && _); [|discriminate]. intros [= <-]. cbn [g_loggers g_level g_root]. split; [reflexivity|]. split; [reflexivity|].
    unfold default_sink. rewrite lookup_entries. destruct (lookup leqb (txt "default") names) as [v|]; cbn [option_map]; [|reflexivity].
    destruct (log_file v); reflexivity.
  Qed.
End SetUp.
