(* C173: the configuration shown by /now, loaded again. *)
From Coq Require Import String Lia.
From Verif Require Import Base Text TextOps AddrModel ConfModel RouteModel InhModel InhProofs NwModel NwSpec NwProofs.
Open Scope N_scope.

Section Props.
  Context {V : Type} (as_err : V -> V).
  Notation load := (load_http as_err).

  (* the common part of a server and of a location after loading *)
  Let s1 (h : @ihttp V) (sv : iserver) : common := pre_deal as_err (copy_from_parent (v_comm sv) (pre_deal as_err (with_main (h_comm h)))).
  Lemma loaded h i j sv l : at_loc h i j sv l ->
    let sv1 := IServer (s1 h sv) (v_up sv) (v_upstream sv ++ h_upstream h) (v_headers sv) (v_root sv) (v_locs sv) in
    at_loc (load h) i j (IServer (s1 h sv) (v_up sv) (v_upstream sv ++ h_upstream h) (v_headers sv) (v_root sv) (map (fill_location as_err sv1) (v_locs sv)))
      (fill_location as_err sv1 l).
  Proof.
    intros [H1 H2]. unfold load_http, fill_http. cbn [h_servers h_comm h_upstream]. split.
    - cbn [h_servers]. rewrite nth_error_map, H1. reflexivity.
    - cbn [v_locs]. rewrite nth_error_map, H2. reflexivity.
  Qed.
  Lemma fill_fields sv l : let c := pre_deal as_err (copy_from_parent (i_comm l) (v_comm sv)) in let l' := fill_location as_err sv l in
    i_comm l' = c /\ i_up l' = Some (v_up sv) /\ i_upstream l' = i_upstream l ++ v_upstream sv /\ i_headers l' = i_headers l ++ v_headers sv /\
    i_root l' = match i_root l with Some r => Some r | None => v_root sv end /\ (i_root l <> None \/ v_root sv = None -> i_file l' = i_file l) /\
    i_rule l' = match match_name (i_rule l) with Some n => match lookup leqb n (c_match c) with Some m => m | None => i_rule l end | None => i_rule l end.
  Proof.
    cbv zeta. unfold fill_location. destruct (i_root l) as [r|] eqn:R, (v_root sv) as [q|] eqn:Q; cbn [i_comm i_up i_upstream i_headers i_root i_file i_rule];
      repeat (split; [reflexivity|]); split; try reflexivity; intros [H|H]; congruence.
  Qed.
  (* both loads of one location *)
  Lemma twice h i j sv l : at_loc h i j sv l ->
    exists sv1 l1 sv2 l2, at_loc (load h) i j sv1 l1 /\ at_loc (load (load h)) i j sv2 l2 /\
      v_comm sv1 = s1 h sv /\ v_up sv1 = v_up sv /\ v_upstream sv1 = v_upstream sv ++ h_upstream h /\ v_headers sv1 = v_headers sv /\ v_root sv1 = v_root sv /\
      l1 = fill_location as_err (IServer (s1 h sv) (v_up sv) (v_upstream sv ++ h_upstream h) (v_headers sv) (v_root sv) (v_locs sv)) l /\
      l2 = fill_location as_err (IServer (s1 (load h) sv1) (v_up sv1) (v_upstream sv1 ++ h_upstream h) (v_headers sv1) (v_root sv1) (v_locs sv1)) l1 /\
      v_comm sv2 = s1 (load h) sv1.
  Proof.
    intros H. pose proof (loaded h i j sv l H) as A. cbv zeta in A. pose proof (loaded _ _ _ _ _ A) as B. cbv zeta in B.
    eexists _, _, _, _. split; [exact A|]. split; [exact B|]. cbn [v_comm v_up v_upstream v_headers v_root v_locs]. repeat (split; [reflexivity|]). split; reflexivity.
  Qed.
  Lemma s1_again h sv sv1 : (forall v, as_err (as_err v) = as_err v) -> distinct (h_comm h) -> distinct (v_comm sv) -> v_comm sv1 = s1 h sv ->
    same_common (s1 (load h) sv1) (s1 h sv) /\ distinct (s1 h sv) /\ distinct (s1 (load h) sv1).
  Proof.
    intros Hi Dh Ds E. assert (P : distinct (pre_deal as_err (with_main (h_comm h)))) by apply distinct_pre, distinct_main, Dh.
    assert (D1 : distinct (s1 h sv)) by (apply distinct_copy, Ds).
    split; [|split; [exact D1|unfold s1 at 1; rewrite E; apply distinct_copy, D1]].
    unfold s1 at 1. rewrite E. change (h_comm (load h)) with (pre_deal as_err (with_main (h_comm h))). rewrite main_main.
    apply same_trans with (pre_deal as_err (copy_from_parent (s1 h sv) (pre_deal as_err (with_main (h_comm h))))).
    - apply copy_same; [apply same_refl|apply pre_pre, Hi|apply distinct_pre, P|exact P].
    - apply copy_copy; assumption.
  Qed.

  (* Every location keeps its settings, log formats, log names and named rules, its root, its file server and the name of
     its server (as_err, what is made of a text for error_log, is applied once more). *)
  Theorem C173_settings_partial : forall h i j sv l, at_loc h i j sv l -> all_distinct h -> (forall v, as_err (as_err v) = as_err v) ->
    exists sv1 l1 sv2 l2, at_loc (load h) i j sv1 l1 /\ at_loc (load (load h)) i j sv2 l2 /\
      same_common (i_comm l2) (i_comm l1) /\ same_common (v_comm sv2) (v_comm sv1) /\
      i_root l2 = i_root l1 /\ i_file l2 = i_file l1 /\ i_up l2 = i_up l1.
  Proof.
    intros h i j sv l H [Dh Ds] Hi. destruct (twice h i j sv l H) as (sv1 & l1 & sv2 & l2 & A & B & E1 & E2 & E3 & E4 & E5 & L1 & L2 & E6).
    exists sv1, l1, sv2, l2. split; [exact A|]. split; [exact B|].
    assert (Isv : In sv (h_servers h)) by (eapply nth_error_In, (proj1 H)). assert (Il : In l (v_locs sv)) by (eapply nth_error_In, (proj2 H)).
    destruct (Ds sv Isv) as [Dv Dl]. specialize (Dl l Il).
    destruct (s1_again h sv sv1 Hi Dh Dv E1) as (S1 & S2 & S3).
    destruct (fill_fields (IServer (s1 h sv) (v_up sv) (v_upstream sv ++ h_upstream h) (v_headers sv) (v_root sv) (v_locs sv)) l) as (F1 & F2 & F3 & F4 & F5 & F6 & F7).
    rewrite <- L1 in *. cbn [v_comm v_up v_upstream v_headers v_root v_locs] in F1, F2, F3, F4, F5, F6, F7.
    destruct (fill_fields (IServer (s1 (load h) sv1) (v_up sv1) (v_upstream sv1 ++ h_upstream h) (v_headers sv1) (v_root sv1) (v_locs sv1)) l1) as (G1 & G2 & G3 & G4 & G5 & G6 & G7).
    rewrite <- L2 in *. cbn [v_comm v_up v_upstream v_headers v_root v_locs] in G1, G2, G3, G4, G5, G6, G7.
    split; [|split; [|split; [|split]]].
    - rewrite G1, F1. apply same_trans with (pre_deal as_err (copy_from_parent (pre_deal as_err (copy_from_parent (i_comm l) (s1 h sv))) (s1 h sv))).
      + apply copy_same; [apply same_refl|exact S1|exact S3|exact S2].
      + apply copy_copy; assumption.
    - rewrite E6, E1. exact S1.
    - rewrite G5, E5, F5. destruct (i_root l), (v_root sv); reflexivity.
    - apply G6. rewrite E5, F5. destruct (i_root l), (v_root sv); [left; discriminate|left; discriminate|left; discriminate|right; reflexivity].
    - rewrite G2, F2, E2. reflexivity.
  Qed.

  (* A rule that is no name is kept. *)
  Theorem C173_rule_partial : forall h i j sv l, at_loc h i j sv l ->
    exists sv1 l1 sv2 l2, at_loc (load h) i j sv1 l1 /\ at_loc (load (load h)) i j sv2 l2 /\ (match_name (i_rule l1) = None -> i_rule l2 = i_rule l1).
  Proof.
    intros h i j sv l H. destruct (twice h i j sv l H) as (sv1 & l1 & sv2 & l2 & A & B & E1 & E2 & E3 & E4 & E5 & L1 & L2 & E6).
    exists sv1, l1, sv2, l2. split; [exact A|]. split; [exact B|]. intros N.
    destruct (fill_fields (IServer (s1 (load h) sv1) (v_up sv1) (v_upstream sv1 ++ h_upstream h) (v_headers sv1) (v_root sv1) (v_locs sv1)) l1) as (_ & _ & _ & _ & _ & _ & G7).
    rewrite <- L2, N in G7. exact G7.
  Qed.
  Lemma s1_match h sv n : lookup leqb n (c_match (s1 h sv)) = nearest (lookup leqb n (c_match (v_comm sv))) (lookup leqb n (c_match (h_comm h))) None.
  Proof.
    unfold s1. cbn [c_match pre_deal copy_from_parent]. rewrite lookup_under. unfold nearest. destruct (lookup leqb n (c_match (v_comm sv))); [reflexivity|].
    unfold with_main. destruct (has _ _ _); cbn [c_match]; destruct (lookup leqb n (c_match (h_comm h))); reflexivity.
  Qed.
  (* False of the code: a location with the rule @a, where a is the rule @b, has the rule @b as it stands after the first
     load, and the rule of the name b after the second. *)
  Theorem C173_rule_refuted : forall h i j sv l a m b m', at_loc h i j sv l ->
    match_name (i_rule l) = Some a -> rule_named h sv l a = Some m -> match_name m = Some b -> rule_named h sv l b = Some m' ->
    exists sv1 l1 sv2 l2, at_loc (load h) i j sv1 l1 /\ at_loc (load (load h)) i j sv2 l2 /\ i_rule l1 = m /\ i_rule l2 = m'.
  Proof.
    intros h i j sv l a m b m' H Ha Hm Hb Hm'. destruct (twice h i j sv l H) as (sv1 & l1 & sv2 & l2 & A & B & E1 & E2 & E3 & E4 & E5 & L1 & L2 & E6).
    exists sv1, l1, sv2, l2. split; [exact A|]. split; [exact B|].
    destruct (fill_fields (IServer (s1 h sv) (v_up sv) (v_upstream sv ++ h_upstream h) (v_headers sv) (v_root sv) (v_locs sv)) l) as (F1 & _ & _ & _ & _ & _ & F7).
    rewrite <- L1 in *. cbn [v_comm] in F1, F7.
    destruct (fill_fields (IServer (s1 (load h) sv1) (v_up sv1) (v_upstream sv1 ++ h_upstream h) (v_headers sv1) (v_root sv1) (v_locs sv1)) l1) as (G1 & _ & _ & _ & _ & _ & G7).
    rewrite <- L2 in *. cbn [v_comm] in G1, G7.
    assert (M1 : forall n x, rule_named h sv l n = Some x -> lookup leqb n (c_match (i_comm l1)) = Some x).
    { intros n x. rewrite F1. cbn [c_match pre_deal copy_from_parent]. rewrite lookup_under, s1_match. unfold rule_named, nearest.
      destruct (lookup leqb n (c_match (i_comm l))), (lookup leqb n (c_match (v_comm sv))), (lookup leqb n (c_match (h_comm h))); intros X; exact X. }
    assert (R1 : i_rule l1 = m) by (rewrite F7, Ha, <- F1, (M1 a m Hm); reflexivity). split; [exact R1|].
    rewrite G7, R1, Hb, <- G1. rewrite G1. cbn [c_match pre_deal copy_from_parent]. rewrite lookup_under, (M1 b m' Hm'). reflexivity.
  Qed.

  (* False of the code: the header rules of the server are added to the location's once more, and so are the backends of
     the server and of the http section. *)
  Theorem C173_lists_refuted : forall h i j sv l, at_loc h i j sv l ->
    exists sv1 l1 sv2 l2, at_loc (load h) i j sv1 l1 /\ at_loc (load (load h)) i j sv2 l2 /\
      i_headers l1 = i_headers l ++ v_headers sv /\ i_headers l2 = i_headers l1 ++ v_headers sv /\
      i_upstream l1 = i_upstream l ++ v_upstream sv ++ h_upstream h /\ i_upstream l2 = i_upstream l1 ++ v_upstream sv ++ h_upstream h ++ h_upstream h.
  Proof.
    intros h i j sv l H. destruct (twice h i j sv l H) as (sv1 & l1 & sv2 & l2 & A & B & E1 & E2 & E3 & E4 & E5 & L1 & L2 & E6).
    exists sv1, l1, sv2, l2. split; [exact A|]. split; [exact B|].
    destruct (fill_fields (IServer (s1 h sv) (v_up sv) (v_upstream sv ++ h_upstream h) (v_headers sv) (v_root sv) (v_locs sv)) l) as (_ & _ & F3 & F4 & _).
    rewrite <- L1 in *. cbn [v_headers v_upstream] in F3, F4.
    destruct (fill_fields (IServer (s1 (load h) sv1) (v_up sv1) (v_upstream sv1 ++ h_upstream h) (v_headers sv1) (v_root sv1) (v_locs sv1)) l1) as (_ & _ & G3 & G4 & _).
    rewrite <- L2 in *. cbn [v_headers v_upstream] in G3, G4.
    split; [exact F4|]. split; [rewrite G4, E4; reflexivity|]. split; [exact F3|]. rewrite G3, E3, <- app_assoc. reflexivity.
  Qed.
  (* so a rule of the server that adds a header to the request adds it twice, whatever the location's own rules and the request *)
  Theorem C173_added_twice_refuted : forall h i j sv l r same conv hd, at_loc h i j sv l ->
    v_headers sv = [r] -> ch_oper r = OAdd -> ch_proxy r = true ->
    exists sv1 l1 sv2 l2 before, at_loc (load h) i j sv1 l1 /\ at_loc (load (load h)) i j sv2 l2 /\
      rewrite_request same conv (i_headers l1) hd = before ++ [(ch_key r, conv (ch_val r))] /\
      rewrite_request same conv (i_headers l2) hd = before ++ [(ch_key r, conv (ch_val r)); (ch_key r, conv (ch_val r))].
  Proof.
    intros h i j sv l r same conv hd H Hr Ho Hp. destruct (C173_lists_refuted h i j sv l H) as (sv1 & l1 & sv2 & l2 & A & B & H1 & H2 & _).
    exists sv1, l1, sv2, l2, (rewrite_request same conv (i_headers l) hd). split; [exact A|]. split; [exact B|].
    assert (S : forall rs, rewrite_request same conv (rs ++ [r]) hd = rewrite_request same conv rs hd ++ [(ch_key r, conv (ch_val r))]).
    { intros rs. unfold rewrite_request. rewrite fold_left_app. cbn [fold_left]. rewrite Hp. unfold rewrite_header, rewrite_with. rewrite Ho. reflexivity. }
    split; [rewrite H1, Hr; apply S|]. rewrite H2, H1, Hr, !S, <- app_assoc. reflexivity.
  Qed.
  (* Rules that only give defaults, or only remove, do the same the second time. *)
  Lemma again_default same conv rs : (forall k, same k k = true) -> (forall r, In r rs -> ch_oper r = ODefault) -> forall hd,
    (forall r, In r rs -> ch_proxy r = true -> h_contains same (ch_key r) hd = true) -> rewrite_request same conv rs hd = hd.
  Proof.
    intros R. induction rs as [|r rs IH]; intros D hd C; [reflexivity|]. unfold rewrite_request. cbn [fold_left]. change (rewrite_request same conv rs (if ch_proxy r then rewrite_header same conv r hd else hd) = hd).
    assert (E : (if ch_proxy r then rewrite_header same conv r hd else hd) = hd).
    { destruct (ch_proxy r) eqn:P; [|reflexivity]. unfold rewrite_header, rewrite_with. rewrite (D r (or_introl eq_refl)), (C r (or_introl eq_refl) P). reflexivity. }
    rewrite E. apply IH; intros x I; [apply D|apply C]; right; exact I.
  Qed.
  Lemma default_adds same conv rs : (forall k, same k k = true) -> (forall r, In r rs -> ch_oper r = ODefault) -> forall hd,
    (forall k, h_contains same k hd = true -> h_contains same k (rewrite_request same conv rs hd) = true) /\
    (forall r, In r rs -> ch_proxy r = true -> h_contains same (ch_key r) (rewrite_request same conv rs hd) = true).
  Proof.
    intros R. induction rs as [|r rs IH]; intros D hd; [split; [intros k H; exact H|intros r []]|]. unfold rewrite_request. cbn [fold_left].
    change (fold_left _ rs ?x) with (rewrite_request same conv rs x). destruct (IH (fun x I => D x (or_intror I)) (if ch_proxy r then rewrite_header same conv r hd else hd)) as [A B].
    assert (G : forall k, h_contains same k hd = true -> h_contains same k (if ch_proxy r then rewrite_header same conv r hd else hd) = true).
    { intros k K. destruct (ch_proxy r); [|exact K]. unfold rewrite_header, rewrite_with. rewrite (D r (or_introl eq_refl)). destruct (h_contains same (ch_key r) hd); [exact K|].
      unfold h_contains, h_push in *. rewrite existsb_app, K. reflexivity. }
    split; [intros k K; apply A, G, K|]. intros x [<-|I] P; [|apply B; assumption]. apply A. rewrite P. unfold rewrite_header, rewrite_with. rewrite (D r (or_introl eq_refl)).
    destruct (h_contains same (ch_key r) hd) eqn:E; [exact E|]. unfold h_contains, h_push. rewrite existsb_app. cbn [existsb fst]. rewrite R. apply Bool.orb_true_r.
  Qed.
  Lemma del_filter same conv rs : (forall r, In r rs -> ch_oper r = ODel) -> forall hd,
    rewrite_request same conv rs hd = filter (fun kv => forallb (fun r => negb (ch_proxy r && same (ch_key r) (fst kv))) rs) hd.
  Proof.
    induction rs as [|r rs IH]; intros D hd; unfold rewrite_request; cbn [fold_left forallb].
    - induction hd as [|x hd IH]; [reflexivity|]. cbn [filter]. rewrite <- IH. reflexivity.
    - change (fold_left _ rs ?x) with (rewrite_request same conv rs x). rewrite IH by (intros x I; apply D; right; exact I).
      assert (E : (if ch_proxy r then rewrite_header same conv r hd else hd) = filter (fun kv => negb (ch_proxy r && same (ch_key r) (fst kv))) hd).
      { unfold rewrite_header, rewrite_with. rewrite (D r (or_introl eq_refl)). destruct (ch_proxy r); cbn [andb negb]; [reflexivity|]. clear. induction hd as [|x hd IH]; [reflexivity|]. cbn [filter]. rewrite <- IH. reflexivity. }
      rewrite E. clear. induction hd as [|x hd IH]; [reflexivity|]. cbn [filter]. destruct (negb (ch_proxy r && same (ch_key r) (fst x))); cbn [andb filter]; [|exact IH].
      destruct (forallb _ rs); rewrite IH; reflexivity.
  Qed.
  Theorem C173_rules_partial : forall h i j sv l same conv hd, at_loc h i j sv l -> (forall k, same k k = true) ->
    (forall r, In r (v_headers sv) -> ch_oper r = ODefault) \/ (forall r, In r (v_headers sv) -> ch_oper r = ODel) ->
    exists sv1 l1 sv2 l2, at_loc (load h) i j sv1 l1 /\ at_loc (load (load h)) i j sv2 l2 /\
      rewrite_request same conv (i_headers l2) hd = rewrite_request same conv (i_headers l1) hd.
  Proof.
    intros h i j sv l same conv hd H R D. destruct (C173_lists_refuted h i j sv l H) as (sv1 & l1 & sv2 & l2 & A & B & H1 & H2 & _).
    exists sv1, l1, sv2, l2. split; [exact A|]. split; [exact B|].
    assert (S : forall a b x, rewrite_request same conv (a ++ b) x = rewrite_request same conv b (rewrite_request same conv a x)) by (intros; unfold rewrite_request; apply fold_left_app).
    rewrite H2, H1, !S. destruct D as [D|D].
    - apply again_default; [exact R|exact D|]. intros r I P. apply default_adds; assumption.
    - rewrite !(del_filter same conv (v_headers sv) D). set (x := rewrite_request same conv (i_headers l) hd). clear. induction x as [|y x IH]; [reflexivity|].
      cbn [filter]. destruct (forallb _ (v_headers sv)) eqn:E; cbn [filter]; [rewrite E, IH; reflexivity|exact IH].
  Qed.
  (* The backend that is found, the first for which a test holds, is the same. *)
  Theorem C173_backend_partial : forall h i j sv l test, at_loc h i j sv l ->
    exists sv1 l1 sv2 l2, at_loc (load h) i j sv1 l1 /\ at_loc (load (load h)) i j sv2 l2 /\ find test (i_upstream l2) = find test (i_upstream l1).
  Proof.
    intros h i j sv l test H. destruct (C173_lists_refuted h i j sv l H) as (sv1 & l1 & sv2 & l2 & A & B & _ & _ & H1 & H2).
    exists sv1, l1, sv2, l2. split; [exact A|]. split; [exact B|].
    assert (F : forall a b : list V, find test (a ++ b) = match find test a with Some x => Some x | None => find test b end).
    { intros a b. induction a as [|x a IH]; [reflexivity|]. cbn [app find]. destruct (test x); [reflexivity|exact IH]. }
    rewrite H2, H1, !F. destruct (find test (i_upstream l)), (find test (v_upstream sv)), (find test (h_upstream h)); reflexivity.
  Qed.
End Props.

(* The hypotheses are met: a location with the rule @a, a server that adds a header, a rule a that is @b. *)
Definition demo_rule (s : string) : matcher := RouteModel.Matcher (Some (txt s)) None None None None None.
Definition demo : @ihttp N :=
  let none := Common (fun _ => None) [] [] [] in
  IHttp (Common (fun k => match k with rate_limit => Some 7 | _ => None end) [] [(txt "x", txt "x.log")] [(txt "a", demo_rule "@b"); (txt "b", demo_rule "/b/*")]) [3]
    [IServer none (txt "s") [2] [CHeader OAdd true (txt "via") (txt "wm")] (Some (txt "/www")) [ILoc none (demo_rule "@a") None [1] [] None None]].
Example C173_demo : exists sv l,
  at_loc demo 0 0 sv l /\ all_distinct demo /\ v_headers sv = [CHeader OAdd true (txt "via") (txt "wm")] /\
  match_name (i_rule l) = Some (txt "a") /\ rule_named demo sv l (txt "a") = Some (demo_rule "@b") /\ match_name (demo_rule "@b") = Some (txt "b") /\
  rule_named demo sv l (txt "b") = Some (demo_rule "/b/*") /\
  match nth_error (h_servers (load_http (fun v => v) (load_http (fun v => v) demo))) 0 with
  | Some sv2 => match v_locs sv2 with [l2] => i_rule l2 = demo_rule "/b/*" /\ i_upstream l2 = [1; 2; 3; 2; 3; 3] /\ length (i_headers l2) = 2%nat /\ c_set (i_comm l2) rate_limit = Some 7 | _ => False end
  | None => False end.
Proof.
  eexists _, _. split; [split; reflexivity|]. split.
  { split; [split; [constructor|repeat constructor; intros []]|]. intros sv [<-|[]]. split; [split; constructor|]. intros l [<-|[]]. split; constructor. }
  vm_compute. repeat split; reflexivity.
Qed.
Print Assumptions C173_settings_partial.
Print Assumptions C173_rule_partial.
Print Assumptions C173_rule_refuted.
Print Assumptions C173_lists_refuted.
Print Assumptions C173_added_twice_refuted.
Print Assumptions C173_rules_partial.
Print Assumptions C173_backend_partial.
