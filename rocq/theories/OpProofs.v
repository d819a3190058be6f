(* Reading of the command line: proofs. *)
From Verif Require Import Base TextOps AddrModel ConfModel OpModel OpSpec.
Open Scope N_scope.

(* a row of items in which used items are gaps, and the options still in it *)
Inductive tile (T : list spec) : list occ -> list item -> Prop :=
| t_nil : tile T [] []
| t_gone os l : tile T os l -> tile T os (Gone :: l)
| t_occ o os l : proper T o -> tile T os l -> tile T (o :: os) (written o ++ l).

Lemma tile_flat T os : Forall (proper T) os -> tile T os (flat_map written os).
Proof. induction 1; cbn [flat_map]; [constructor|]. now apply t_occ. Qed.
Lemma name_not_word s w : a_name s (IWord w) -> False.
Proof. intros [H|(c & _ & H)]; discriminate. Qed.
Lemma name_not_gone s : a_name s Gone -> False.
Proof. intros [H|(c & _ & H)]; discriminate. Qed.
Lemma tile_proper T os l : tile T os l -> Forall (proper T) os.
Proof. induction 1; auto. Qed.
Lemma flat_tile T os l : tile T os l -> ~ In Gone l -> l = flat_map written os.
Proof.
  induction 1; intros G; [reflexivity|destruct G; now left|]. cbn [flat_map]. f_equal. apply IHtile. intros X. apply G, in_app_iff. now right.
Qed.
Lemma tile_app T o1 l1 : tile T o1 l1 -> forall o2 l2, tile T o2 l2 -> tile T (o1 ++ o2) (l1 ++ l2).
Proof.
  induction 1; intros o2 l2 H2; cbn [app]; [exact H2|apply t_gone; auto|]. rewrite <- app_assoc. apply t_occ; auto.
Qed.
Lemma tile_split T os l : tile T os l -> forall l1 l2, l = l1 ++ Gone :: l2 ->
  exists o1 o2, os = o1 ++ o2 /\ tile T o1 l1 /\ tile T o2 l2.
Proof.
  induction 1 as [|os l H IH|o os l P H IH]; intros l1 l2 E.
  - now destruct l1.
  - destruct l1 as [|x l1]; cbn [app] in E; [injection E as E2|injection E as E1 E2].
    + subst l. exists [], os. split; [reflexivity|]. split; [constructor|exact H].
    + subst x. destruct (IH _ _ E2) as (o1 & o2 & -> & A & B). exists o1, o2. split; [reflexivity|]. split; [now apply t_gone|exact B].
  - unfold written in E. destruct l1 as [|x l1]; cbn [app] in E; injection E as E1 E2.
    + destruct P as (_ & P & _). rewrite E1 in P. destruct (name_not_gone _ P).
    + destruct (oc_value o) as [w|] eqn:V; cbn [app] in E2.
      * destruct l1 as [|y l1]; cbn [app] in E2; injection E2 as E2 E3; [discriminate|].
        destruct (IH _ _ E3) as (o1 & o2 & -> & A & B). exists (o :: o1), o2. split; [reflexivity|]. split; [|exact B].
        assert (W : x :: y :: l1 = written o ++ l1) by (unfold written; rewrite V; cbn [app]; congruence). rewrite W. now apply t_occ.
      * destruct (IH _ _ E2) as (o1 & o2 & -> & A & B). exists (o :: o1), o2. split; [reflexivity|]. split; [|exact B].
        assert (W : x :: l1 = written o ++ l1) by (unfold written; rewrite V; cbn [app]; congruence). rewrite W. now apply t_occ.
Qed.

(* ---- names ---- *)
Lemma short_two T s s' c : NoDup (flat_map (fun s => match s_short s with Some c => [c] | None => [] end) T) ->
  In s T -> In s' T -> s_short s = Some c -> s_short s' = Some c -> s = s'.
Proof.
  induction T as [|t T IH]; [intros _ []|]. cbn [flat_map]. intros D I1 I2 E1 E2.
  assert (K : forall u, In u T -> s_short u = Some c -> s_short t = Some c -> False).
  { intros u Iu Eu Et. rewrite Et in D. cbn [app] in D. apply NoDup_cons_iff in D as (D & _). apply D, in_flat_map. exists u. rewrite Eu. split; [exact Iu|now left]. }
  assert (D' : NoDup (flat_map (fun s => match s_short s with Some c => [c] | None => [] end) T)).
  { destruct (s_short t); [cbn [app] in D; now apply NoDup_cons_iff in D as (_ & D)|exact D]. }
  destruct I1 as [<-|I1], I2 as [<-|I2]; auto; try (now destruct (K _ I2 E2 E1)); now destruct (K _ I1 E1 E2).
Qed.
Lemma long_two T s s' : NoDup (map s_long T) -> In s T -> In s' T -> s_long s = s_long s' -> s = s'.
Proof.
  induction T as [|t T IH]; [intros _ []|]. cbn [map]. intros D I1 I2 E. apply NoDup_cons_iff in D as (D1 & D2).
  destruct I1 as [<-|I1], I2 as [<-|I2]; auto; destruct D1; [rewrite E|rewrite <- E]; now apply in_map.
Qed.
Lemma named_iff s i : named s i = true <-> a_name s i.
Proof.
  unfold named, a_name. destruct i as [n|c|w|].
  - rewrite leqb_ok. split; [intros ->; auto|]. intros [H|(c & _ & H)]; [now injection H|discriminate].
  - split.
    + destruct (s_short s) as [d|] eqn:E; [|discriminate]. intros H. apply N.eqb_eq in H as ->. right. eauto.
    + intros [H|(d & E & H)]; [discriminate|]. rewrite E. injection H as ->. apply N.eqb_refl.
  - split; [discriminate|]. intros [H|(c & _ & H)]; discriminate.
  - split; [discriminate|]. intros [H|(c & _ & H)]; discriminate.
Qed.
Lemma named_same T s s' i : distinct T -> In s T -> In s' T -> a_name s i -> a_name s' i -> s = s'.
Proof.
  intros (D1 & D2) I1 I2 [->|(c & E & ->)] [H|(c' & E' & H)]; try discriminate.
  - injection H as H. exact (long_two _ _ _ D1 I1 I2 H).
  - injection H as <-. exact (short_two _ _ _ _ D2 I1 I2 E E').
Qed.
(* an occurrence is named by option s exactly if it is an occurrence of s *)
Lemma occ_named T s o : distinct T -> In s T -> proper T o -> named s (oc_name o) = leqb (s_long s) (s_long (oc_spec o)).
Proof.
  intros D I (P1 & P2 & _). destruct (leqb (s_long s) (s_long (oc_spec o))) eqn:E.
  - apply leqb_ok in E. assert (s = oc_spec o) as -> by (destruct D as (D & _); exact (long_two _ _ _ D I P1 E)). now apply named_iff.
  - destruct (named s (oc_name o)) eqn:N; [|reflexivity]. apply named_iff in N.
    rewrite (named_same _ _ _ _ D I P1 N P2), leqb_refl in E. discriminate.
Qed.

(* the first occurrence of s, and the others *)
Fixpoint first (s : spec) (os : list occ) : option (option text * list occ) :=
  match os with
  | [] => None
  | o :: os' => if leqb (s_long s) (s_long (oc_spec o)) then Some (oc_value o, os')
                else option_map (fun x => (fst x, o :: snd x)) (first s os')
  end.
Lemma first_values s os : values s os = match first s os with None => [] | Some (v, os') => v :: values s os' end.
Proof.
  induction os as [|o os IH]; [reflexivity|]. cbn [first]. unfold values in *. cbn [flat_map].
  destruct (leqb (s_long s) (s_long (oc_spec o))) eqn:E; [reflexivity|]. cbn [app]. rewrite IH.
  destruct (first s os) as [[v os']|]; cbn [option_map fst snd flat_map]; [now rewrite E|reflexivity].
Qed.
Lemma first_length s os v os' : first s os = Some (v, os') -> length os = S (length os').
Proof.
  revert v os'. induction os as [|o os IH]; intros v os'; cbn [first]; [discriminate|].
  destruct (leqb (s_long s) (s_long (oc_spec o))); [intros [= <- <-]; reflexivity|].
  destruct (first s os) as [[v1 os1]|]; [|discriminate]. cbn [option_map fst snd]. intros [= <- <-]. cbn [length]. f_equal. now eapply IH.
Qed.
Lemma first_others s s' os v os' : first s os = Some (v, os') -> s_long s' <> s_long s -> values s' os' = values s' os.
Proof.
  intros H Ne. revert v os' H. induction os as [|o os IH]; intros v os'; cbn [first]; [discriminate|].
  destruct (leqb (s_long s) (s_long (oc_spec o))) eqn:E.
  - intros [= <- <-]. apply leqb_ok in E. unfold values. cbn [flat_map]. destruct (leqb (s_long s') (s_long (oc_spec o))) eqn:E'; [|reflexivity].
    apply leqb_ok in E'. congruence.
  - destruct (first s os) as [[v1 os1]|]; [|discriminate]. cbn [option_map fst snd]. intros [= <- <-].
    unfold values in *. cbn [flat_map]. f_equal. now eapply IH.
Qed.
Lemma first_sub s os v os' : first s os = Some (v, os') -> incl os' os.
Proof.
  revert v os'. induction os as [|o os IH]; intros v os'; cbn [first]; [discriminate|].
  destruct (leqb (s_long s) (s_long (oc_spec o))); [intros [= <- <-]; intros x X; now right|].
  destruct (first s os) as [[v1 os1]|]; [|discriminate]. cbn [option_map fst snd]. intros [= <- <-] x [<-|X]; [now left|right; now eapply IH].
Qed.
Lemma first_none s os : first s os = None <-> values s os = [].
Proof. rewrite first_values. destruct (first s os) as [[v os']|]; split; congruence. Qed.

(* ---- taking from a row ---- *)
Lemma take_arg_tile T s os l : distinct T -> In s T -> s_mult s <> Switch -> tile T os l ->
  match first s os with
  | None => take_arg s l = Ok None
  | Some (v, os') => exists w l', v = Some w /\ take_arg s l = Ok (Some (w, l')) /\ tile T os' l' /\ length l' = length l
  end.
Proof.
  intros D I NS. induction 1 as [|os l H IH|o os l P H IH]; cbn [first].
  - reflexivity.
  - destruct (first s os) as [[v os']|]; cbn [take_arg named].
    + destruct IH as (w & l' & -> & -> & A & L). exists w, (Gone :: l'). cbn [rbind option_map fst snd length]. split; [reflexivity|]. split; [reflexivity|]. split; [now apply t_gone|congruence].
    + now rewrite IH.
  - assert (W : written o ++ l = oc_name o :: (match oc_value o with Some w => [IWord w] | None => [] end ++ l)) by reflexivity. rewrite W. assert (N := occ_named T s o D I P). destruct (leqb (s_long s) (s_long (oc_spec o))) eqn:E.
    + destruct (oc_value o) as [w|] eqn:V.
      * exists w, (Gone :: Gone :: l). cbn [app take_arg]. rewrite N. split; [reflexivity|]. split; [reflexivity|]. split; [now do 2 apply t_gone|].
        reflexivity.
      * apply leqb_ok in E. destruct P as (P1 & _ & P3). apply P3 in V. destruct D as (D & _). rewrite (long_two _ _ _ D I P1 E) in NS. congruence.
    + assert (IH' : match first s os with
        | None => take_arg s (match oc_value o with Some w => [IWord w] | None => [] end ++ l) = Ok None
        | Some (v, os') => exists w l', v = Some w /\ take_arg s (match oc_value o with Some w => [IWord w] | None => [] end ++ l) =
             Ok (Some (w, match oc_value o with Some w => [IWord w] | None => [] end ++ l')) /\ tile T os' l' /\ length l' = length l
        end).
      { destruct (oc_value o) as [w0|]; cbn [app take_arg named]; [|exact IH].
        destruct (first s os) as [[v os']|]; [|now rewrite IH]. destruct IH as (w & l' & -> & -> & A & L). exists w, l'. cbn [rbind option_map fst snd]. auto. }
      cbn [take_arg]. rewrite N. destruct (first s os) as [[v os']|]; cbn [option_map fst snd].
      * destruct IH' as (w & l' & -> & -> & A & L). cbn [rbind option_map fst snd].
        exists w, (written o ++ l'). split; [reflexivity|]. split; [reflexivity|]. split; [now apply t_occ|]. unfold written. cbn [app length]. rewrite !app_length. congruence.
      * now rewrite IH'.
Qed.
Lemma take_switch_tile T s os l : distinct T -> In s T -> s_mult s = Switch -> tile T os l ->
  match first s os with
  | None => take_switch s l = None
  | Some (v, os') => exists l', v = None /\ take_switch s l = Some l' /\ tile T os' l'
  end.
Proof.
  intros D I NS. induction 1 as [|os l H IH|o os l P H IH]; cbn [first].
  - reflexivity.
  - destruct (first s os) as [[v os']|]; cbn [take_switch named].
    + destruct IH as (l' & -> & -> & A). exists (Gone :: l'). cbn [option_map]. split; [reflexivity|]. split; [reflexivity|now apply t_gone].
    + now rewrite IH.
  - assert (W : written o ++ l = oc_name o :: (match oc_value o with Some w => [IWord w] | None => [] end ++ l)) by reflexivity. rewrite W. assert (N := occ_named T s o D I P). destruct (leqb (s_long s) (s_long (oc_spec o))) eqn:E.
    + apply leqb_ok in E. destruct P as (P1 & _ & P3). assert (V : oc_value o = None) by (apply P3; destruct D as (D & _); now rewrite <- (long_two _ _ _ D I P1 E)).
      rewrite V. exists (Gone :: l). cbn [app take_switch]. rewrite N. split; [reflexivity|]. split; [reflexivity|now apply t_gone].
    + assert (IH' : match first s os with
        | None => take_switch s (match oc_value o with Some w => [IWord w] | None => [] end ++ l) = None
        | Some (v, os') => exists l', v = None /\ take_switch s (match oc_value o with Some w => [IWord w] | None => [] end ++ l) =
             Some (match oc_value o with Some w => [IWord w] | None => [] end ++ l') /\ tile T os' l'
        end).
      { destruct (oc_value o) as [w0|]; cbn [app take_switch named]; [|exact IH].
        destruct (first s os) as [[v os']|]; [|now rewrite IH]. destruct IH as (l' & -> & -> & A). exists l'. cbn [option_map]. auto. }
      cbn [take_switch]. rewrite N. destruct (first s os) as [[v os']|]; cbn [option_map fst snd].
      * destruct IH' as (l' & -> & -> & A). cbn [option_map]. exists (written o ++ l'). split; [reflexivity|]. split; [reflexivity|now apply t_occ].
      * now rewrite IH'.
Qed.
(* what was taken can be put back *)
Lemma take_arg_back T s l w l' os' : In s T -> s_mult s <> Switch -> distinct T -> take_arg s l = Ok (Some (w, l')) -> tile T os' l' ->
  exists os, tile T os l /\ first s os = Some (Some w, os').
Proof.
  intros I NS D H. assert (K : exists l1 n l2, l = l1 ++ n :: IWord w :: l2 /\ l' = l1 ++ Gone :: Gone :: l2 /\ named s n = true /\ forallb (fun i => negb (named s i)) l1 = true).
  { revert l' H. induction l as [|i r IH]; intros l'; cbn [take_arg]; [discriminate|]. destruct (named s i) eqn:N.
    - destruct r as [|[| |w0|] r]; try discriminate. intros [= <- <-]. exists [], i, r. auto.
    - destruct (take_arg s r) as [[[w0 l0]|]| |] eqn:E; try discriminate. cbn [rbind option_map fst snd]. intros [= <- <-].
      destruct (IH _ eq_refl) as (l1 & n & l2 & -> & -> & A & B). exists (i :: l1), n, l2. cbn [app forallb]. rewrite N. auto. }
  destruct K as (l1 & n & l2 & -> & -> & N & F). intros Ti.
  destruct (tile_split _ _ _ Ti _ _ eq_refl) as (o1 & o2 & -> & T1 & T2).
  destruct (tile_split _ _ _ T2 [] _ eq_refl) as (o3 & o4 & -> & T3 & T4).
  assert (o3 = []) as -> by (inversion T3; reflexivity). cbn [app].
  set (o := Occ s n (Some w)).
  assert (P : proper T o). { split; [exact I|]. split; [now apply named_iff|]. cbn. split; [discriminate|congruence]. }
  exists (o1 ++ o :: o4). split.
  - apply tile_app; [exact T1|]. change (n :: IWord w :: l2) with (written o ++ l2). now apply t_occ.
  - assert (F1 : first s o1 = None).
    { clear - T1 F D I. induction T1 as [|os l H IH|o os l P H IH]; cbn [first]; [reflexivity| |].
      - cbn [forallb named negb andb] in F. auto.
      - rewrite forallb_app in F. apply andb_true_iff in F as (F1 & F2). unfold written in F1. cbn [forallb] in F1. apply andb_true_iff in F1 as (F1 & _).
        rewrite (occ_named T s o D I P) in F1. destruct (leqb (s_long s) (s_long (oc_spec o))); [discriminate|]. now rewrite (IH F2). }
    clear - F1. revert F1. induction o1 as [|x o1 IH]; cbn [app first oc_spec oc_value o]; [now rewrite leqb_refl|].
    destruct (leqb (s_long s) (s_long (oc_spec x))); [discriminate|]. destruct (first s o1) eqn:E; [discriminate|]. intros _. rewrite IH by reflexivity. reflexivity.
Qed.
Lemma take_switch_back T s l l' os' : In s T -> s_mult s = Switch -> distinct T -> take_switch s l = Some l' -> tile T os' l' ->
  exists os, tile T os l /\ first s os = Some (None, os').
Proof.
  intros I NS D H. assert (K : exists l1 n l2, l = l1 ++ n :: l2 /\ l' = l1 ++ Gone :: l2 /\ named s n = true /\ forallb (fun i => negb (named s i)) l1 = true).
  { revert l' H. induction l as [|i r IH]; intros l'; cbn [take_switch]; [discriminate|]. destruct (named s i) eqn:N.
    - intros [= <-]. exists [], i, r. auto.
    - destruct (take_switch s r) as [l0|] eqn:E; [|discriminate]. cbn [option_map]. intros [= <-].
      destruct (IH _ eq_refl) as (l1 & n & l2 & -> & -> & A & B). exists (i :: l1), n, l2. cbn [app forallb]. rewrite N. auto. }
  destruct K as (l1 & n & l2 & -> & -> & N & F). intros Ti.
  destruct (tile_split _ _ _ Ti _ _ eq_refl) as (o1 & o2 & -> & T1 & T2).
  set (o := Occ s n None).
  assert (P : proper T o). { split; [exact I|]. split; [now apply named_iff|]. cbn. tauto. }
  exists (o1 ++ o :: o2). split.
  - apply tile_app; [exact T1|]. change (n :: l2) with (written o ++ l2). now apply t_occ.
  - assert (F1 : first s o1 = None).
    { clear - T1 F D I. induction T1 as [|os l H IH|o os l P H IH]; cbn [first]; [reflexivity| |].
      - cbn [forallb named negb andb] in F. auto.
      - rewrite forallb_app in F. apply andb_true_iff in F as (F1 & F2). unfold written in F1. cbn [forallb] in F1. apply andb_true_iff in F1 as (F1 & _).
        rewrite (occ_named T s o D I P) in F1. destruct (leqb (s_long s) (s_long (oc_spec o))); [discriminate|]. now rewrite (IH F2). }
    clear - F1. revert F1. induction o1 as [|x o1 IH]; cbn [app first oc_spec oc_value o]; [now rewrite leqb_refl|].
    destruct (leqb (s_long s) (s_long (oc_spec x))); [discriminate|]. destruct (first s o1) eqn:E; [discriminate|]. intros _. rewrite IH by reflexivity. reflexivity.
Qed.

Section Read.
  Context (parse_ip : text -> option ipaddr) (parse_sa : text -> option saddr) (local4 local6 : option ipaddr).
  Notation of_text := (of_text parse_ip parse_sa local4 local6).
  Notation read_field := (read_field parse_ip parse_sa local4 local6).
  Notation read_fields := (read_fields parse_ip parse_sa local4 local6).
  Notation read_items := (read_items parse_ip parse_sa local4 local6).
  Notation take_many := (take_many parse_ip parse_sa local4 local6).
  Definition reads (t : ty) (w : text) (v : val) : Prop := of_text t w = Ok v.

  (* the options without those of s *)
  Definition without (s : spec) (os : list occ) : list occ := filter (fun o => negb (leqb (s_long s) (s_long (oc_spec o)))) os.
  Lemma without_first s os v os' : first s os = Some (v, os') -> without s os = without s os'.
  Proof.
    revert v os'. induction os as [|o os IH]; intros v os'; cbn [first]; [discriminate|].
    unfold without in *. cbn [filter]. destruct (leqb (s_long s) (s_long (oc_spec o))) eqn:E; cbn [negb]; [intros [= <- <-]; reflexivity|].
    destruct (first s os) as [[v1 os1]|]; [|discriminate]. cbn [option_map fst snd]. intros [= <- <-]. cbn [filter]. rewrite E. cbn [negb]. f_equal. now eapply IH.
  Qed.
  Lemma without_none s os : values s os = [] -> without s os = os.
  Proof.
    unfold values, without. induction os as [|o os IH]; cbn [flat_map filter]; [reflexivity|].
    destruct (leqb (s_long s) (s_long (oc_spec o))); cbn [app negb]; [discriminate|]. intros H. f_equal. auto.
  Qed.
  Lemma values_without s s' os : s_long s' <> s_long s -> values s' (without s os) = values s' os.
  Proof.
    intros Ne. unfold values, without. induction os as [|o os IH]; cbn [flat_map filter]; [reflexivity|].
    destruct (leqb (s_long s) (s_long (oc_spec o))) eqn:E; cbn [negb]; [|cbn [flat_map]; now rewrite IH].
    apply leqb_ok in E. destruct (leqb (s_long s') (s_long (oc_spec o))) eqn:E'; [apply leqb_ok in E'; congruence|]. exact IH.
  Qed.

  Lemma read_many_ok T t s : distinct T -> In s T -> s_mult s = Many t -> forall n os l vs, (length os <= n)%nat -> tile T os l ->
    Forall2 (fun o v => exists w, o = Some w /\ reads t w v) (values s os) vs ->
    exists l', take_many t s n l = Ok (vs, l') /\ tile T (without s os) l'.
  Proof.
    intros D I M. induction n as [|n IH]; intros os l vs L Ti F.
    - destruct os; [|cbn in L; lia]. inversion F. exists l. auto.
    - cbn [OpModel.take_many]. assert (K := take_arg_tile T s os l D I ltac:(rewrite M; discriminate) Ti). rewrite first_values in F.
      destruct (first s os) as [[v os']|] eqn:E.
      + destruct K as (w & l1 & -> & -> & T1 & _). inversion F as [|? v ? vs' R F']; subst. destruct R as (w' & Ew & R). injection Ew as <-.
        cbn [rbind]. unfold reads in R. rewrite R. cbn [rbind].
        destruct (IH os' l1 vs') as (l' & H1 & H2); [apply first_length in E; lia|exact T1|exact F'|].
        rewrite H1. cbn [rbind fst snd]. exists l'. split; [reflexivity|]. now rewrite (without_first _ _ _ _ E).
      + rewrite K. cbn [rbind]. inversion F; subst. exists l. split; [reflexivity|]. rewrite without_none by now apply first_none. exact Ti.
  Qed.
  Lemma tile_len T os l : tile T os l -> (length os <= length l)%nat.
  Proof. induction 1; cbn [length]; [lia|lia|]. unfold written. cbn [app length]. rewrite app_length. lia. Qed.

  Lemma read_field_ok T s os l vs : distinct T -> In s T -> tile T os l -> means reads (s_mult s) (values s os) vs ->
    exists l', read_field s l = Ok (vs, l') /\ tile T (without s os) l'.
  Proof.
    intros D I Ti M. unfold OpModel.read_field.
    assert (KA : s_mult s <> Switch -> values s os = [] -> take_arg s l = Ok None /\ tile T (without s os) l).
    { intros NS V. assert (K := take_arg_tile T s os l D I NS Ti). apply first_none in V as V'. rewrite V' in K. split; [exact K|]. now rewrite without_none. }
    assert (KB : s_mult s <> Switch -> forall w, values s os = [Some w] -> exists l', take_arg s l = Ok (Some (w, l')) /\ tile T (without s os) l').
    { intros NS w V. assert (K := take_arg_tile T s os l D I NS Ti). rewrite first_values in V. destruct (first s os) as [[v os']|] eqn:E; [|discriminate].
      injection V as -> V. destruct K as (w' & l' & Ew & K & T' & _). injection Ew as <-. exists l'. split; [exact K|]. rewrite (without_first _ _ _ _ E). now rewrite without_none. }
    destruct (s_mult s) as [|t|t|t d|t] eqn:Em; cbn [means] in M.
    - assert (K := take_switch_tile T s os l D I Em Ti). rewrite first_values in M. destruct (first s os) as [[v os']|] eqn:E.
      + destruct K as (l' & -> & -> & T'). destruct M as [(M & _)|(M & ->)]; [discriminate|]. injection M as M. exists l'. split; [reflexivity|].
        rewrite (without_first _ _ _ _ E). now rewrite without_none.
      + rewrite K. destruct M as [(_ & ->)|(M & _)]; [|discriminate]. exists l. split; [reflexivity|]. rewrite without_none by now apply first_none. exact Ti.
    - destruct M as (w & v & V & R & ->). destruct (KB ltac:(discriminate) w V) as (l' & K & T'). rewrite K. cbn [rbind]. rewrite R. cbn [rbind]. eauto.
    - destruct M as [(V & ->)|(w & v & V & R & ->)].
      + destruct (KA ltac:(discriminate) V) as (K & T'). rewrite K. cbn [rbind]. eauto.
      + destruct (KB ltac:(discriminate) w V) as (l' & K & T'). rewrite K. cbn [rbind]. rewrite R. cbn [rbind]. eauto.
    - destruct M as [(V & ->)|(w & v & V & R & ->)].
      + destruct (KA ltac:(discriminate) V) as (K & T'). rewrite K. cbn [rbind]. eauto.
      + destruct (KB ltac:(discriminate) w V) as (l' & K & T'). rewrite K. cbn [rbind]. rewrite R. cbn [rbind]. eauto.
    - apply (read_many_ok T t s D I Em (length l) os l vs); [exact (tile_len _ _ _ Ti)|exact Ti|exact M].
  Qed.
  Lemma without_sub s os : incl (without s os) os.
  Proof. intros o H. now apply filter_In in H. Qed.

  (* with all occurrences of the fields read, nothing of them is left *)
  Lemma read_fields_ok T : distinct T -> forall tab os l a, incl tab T -> NoDup (map s_long tab) -> tile T os l ->
    Forall2 (fun s x => fst x = s_long s /\ means reads (s_mult s) (values s os) (snd x)) tab a ->
    exists os' l', read_fields tab l = Ok (a, l') /\ tile T os' l' /\ incl os' os /\ forall o, In o os' -> ~ In (s_long (oc_spec o)) (map s_long tab).
  Proof.
    intros D. induction tab as [|s tab IH]; intros os l a Sub ND Ti F; inversion F as [|? [n vs] ? a' (F1 & F2) F']; subst.
    - exists os, l. split; [reflexivity|]. split; [exact Ti|]. split; [apply incl_refl|]. intros o _ [].
    - cbn [fst snd] in F1, F2. subst n. cbn [map] in ND. apply NoDup_cons_iff in ND as (ND1 & ND2).
      destruct (read_field_ok T s os l vs D (Sub s (or_introl eq_refl)) Ti F2) as (l1 & R & T1).
      cbn [OpModel.read_fields]. rewrite R. cbn [rbind snd fst].
      destruct (IH (without s os) l1 a') as (os' & l' & R' & T' & S' & N').
      + intros x X. apply Sub. now right.
      + exact ND2.
      + exact T1.
      + clear - F' ND1. induction F' as [|s' x tab' a'' (A & B) F' IHF]; constructor.
        * split; [exact A|]. rewrite values_without; [exact B|]. intros E. apply ND1. rewrite <- E. now left.
        * apply IHF. intros X. apply ND1. now right.
      + rewrite R'. cbn [rbind fst snd]. exists os', l'. split; [reflexivity|]. split; [exact T'|]. split; [intros o O; apply (without_sub s), S', O|].
        intros o O [E|E]; [|exact (N' o O E)]. apply S' in O. apply filter_In in O as (_ & O). rewrite <- E, leqb_refl in O. discriminate.
  Qed.
  (* reading other fields leaves the occurrences of m *)
  Lemma fields_others T m : distinct T -> forall t os l a1, incl t T -> (forall s, In s t -> s_long s <> s_long m) -> NoDup (map s_long t) -> tile T os l ->
    Forall2 (fun s x => fst x = s_long s /\ means reads (s_mult s) (values s os) (snd x)) t a1 ->
    exists os' l', read_fields t l = Ok (a1, l') /\ tile T os' l' /\ values m os' = values m os.
  Proof.
    intros D. induction t as [|s t IH]; intros os l a1 Sub N ND Ti F; inversion F as [|? [n vs] ? a' (F1 & F2) F']; subst.
    - exists os, l. auto.
    - cbn [fst snd] in F1, F2. subst n. cbn [map] in ND. apply NoDup_cons_iff in ND as (ND1 & ND2).
      destruct (read_field_ok T s os l vs D (Sub s (or_introl eq_refl)) Ti F2) as (l1 & R & T1).
      destruct (IH (without s os) l1 a') as (os' & l' & R' & T' & V').
      + intros x X. apply Sub. now right.
      + intros x X. apply N. now right.
      + exact ND2.
      + exact T1.
      + clear - F' ND1. induction F' as [|s' x tab' a'' (A & B) F' IHF]; constructor.
        * split; [exact A|]. rewrite values_without; [exact B|]. intros E. apply ND1. rewrite <- E. now left.
        * apply IHF. intros X. apply ND1. now right.
      + cbn [OpModel.read_fields]. rewrite R. cbn [rbind snd fst]. rewrite R'. cbn [rbind fst snd]. exists os', l'. split; [reflexivity|]. split; [exact T'|].
        rewrite V'. apply values_without. intros E. exact (N s (or_introl eq_refl) (eq_sym E)).
  Qed.
  Lemma tile_empty T l : tile T [] l -> forallb used l = true.
  Proof.
    intros H. remember [] as os eqn:E. induction H; [reflexivity| |discriminate]. cbn. auto.
  Qed.
  Lemma empty_tile T l : forallb used l = true -> tile T [] l.
  Proof. induction l as [|i l IH]; cbn; [constructor|]. destruct i; try discriminate. intros H. apply t_gone. auto. Qed.

  (* ---- the other direction ---- *)
  Lemma read_many_back T t s : distinct T -> In s T -> s_mult s = Many t -> forall n l vs l' os', take_many t s n l = Ok (vs, l') -> tile T os' l' -> values s os' = [] ->
    exists os, tile T os l /\ without s os = os' /\ Forall2 (fun o v => exists w, o = Some w /\ reads t w v) (values s os) vs.
  Proof.
    intros D I M. induction n as [|n IH]; intros l vs l' os' H Ti V; cbn [OpModel.take_many] in H.
    - injection H as <- <-. exists os'. split; [exact Ti|]. split; [now apply without_none|]. rewrite V. constructor.
    - destruct (take_arg s l) as [[[w l1]|]| |] eqn:E; cbn [rbind] in H; try discriminate.
      + destruct (of_text t w) as [v| |] eqn:R; cbn [rbind] in H; try discriminate.
        destruct (take_many t s n l1) as [[vs1 l2]| |] eqn:K; cbn [rbind fst snd] in H; try discriminate. injection H as <- <-.
        destruct (IH _ _ _ _ K Ti V) as (os1 & T1 & W1 & F1).
        destruct (take_arg_back T s l w l1 os1 I ltac:(rewrite M; discriminate) D E T1) as (os & T0 & F0).
        exists os. split; [exact T0|]. split; [now rewrite (without_first _ _ _ _ F0)|]. rewrite first_values, F0. constructor; [exists w; auto|exact F1].
      + injection H as <- <-. exists os'. split; [exact Ti|]. split; [now apply without_none|]. rewrite V. constructor.
  Qed.
  Lemma read_field_back T s l vs l' os' : distinct T -> In s T -> read_field s l = Ok (vs, l') -> tile T os' l' -> values s os' = [] ->
    exists os, tile T os l /\ without s os = os' /\ means reads (s_mult s) (values s os) vs.
  Proof.
    intros D I H Ti V. unfold OpModel.read_field in H.
    assert (KA : forall l0, l0 = l' -> exists os, tile T os l0 /\ without s os = os' /\ values s os = []).
    { intros l0 ->. exists os'. split; [exact Ti|]. split; [now apply without_none|exact V]. }
    assert (KB : s_mult s <> Switch -> forall w, take_arg s l = Ok (Some (w, l')) -> exists os, tile T os l /\ without s os = os' /\ values s os = [Some w]).
    { intros NS w E. destruct (take_arg_back T s l w l' os' I NS D E Ti) as (os & T0 & F0). exists os. split; [exact T0|].
      split; [rewrite (without_first _ _ _ _ F0); now apply without_none|]. rewrite first_values, F0. now rewrite V. }
    destruct (s_mult s) as [|t|t|t d|t] eqn:Em; cbn [means].
    - destruct (take_switch s l) as [l1|] eqn:E; injection H as <- <-.
      + destruct (take_switch_back T s l l1 os' I Em D E Ti) as (os & T0 & F0). exists os. split; [exact T0|].
        split; [rewrite (without_first _ _ _ _ F0); now apply without_none|]. right. rewrite first_values, F0, V. auto.
      + destruct (KA l eq_refl) as (os & A & B & C). exists os. rewrite C. auto.
    - destruct (take_arg s l) as [[[w l1]|]| |] eqn:E; cbn [rbind] in H; try discriminate.
      destruct (of_text t w) as [v| |] eqn:R; cbn [rbind] in H; try discriminate. injection H as <- <-.
      destruct (KB ltac:(discriminate) w eq_refl) as (os & A & B & C). exists os. split; [exact A|]. split; [exact B|]. exists w, v. auto.
    - destruct (take_arg s l) as [[[w l1]|]| |] eqn:E; cbn [rbind] in H; try discriminate.
      + destruct (of_text t w) as [v| |] eqn:R; cbn [rbind] in H; try discriminate. injection H as <- <-.
        destruct (KB ltac:(discriminate) w eq_refl) as (os & A & B & C). exists os. split; [exact A|]. split; [exact B|]. right. exists w, v. auto.
      + injection H as <- <-. destruct (KA l eq_refl) as (os & A & B & C). exists os. rewrite C. auto.
    - destruct (take_arg s l) as [[[w l1]|]| |] eqn:E; cbn [rbind] in H; try discriminate.
      + destruct (of_text t w) as [v| |] eqn:R; cbn [rbind] in H; try discriminate. injection H as <- <-.
        destruct (KB ltac:(discriminate) w eq_refl) as (os & A & B & C). exists os. split; [exact A|]. split; [exact B|]. right. exists w, v. auto.
      + injection H as <- <-. destruct (KA l eq_refl) as (os & A & B & C). exists os. rewrite C. auto.
    - exact (read_many_back T t s D I Em _ _ _ _ _ H Ti V).
  Qed.
  Lemma values_notin s os : (forall o, In o os -> s_long (oc_spec o) <> s_long s) -> values s os = [].
  Proof.
    unfold values. induction os as [|o os IH]; [reflexivity|]. cbn [flat_map]. intros H. rewrite IH by (intros x X; apply H; now right).
    destruct (leqb (s_long s) (s_long (oc_spec o))) eqn:E; [|reflexivity]. apply leqb_ok in E. destruct (H o (or_introl eq_refl)). congruence.
  Qed.
  Lemma without_in s os o : In o os -> In o (without s os) \/ s_long (oc_spec o) = s_long s.
  Proof.
    intros H. destruct (leqb (s_long s) (s_long (oc_spec o))) eqn:E; [right; apply leqb_ok in E; congruence|]. left. apply filter_In. now rewrite E.
  Qed.
  Lemma read_fields_back T : distinct T -> forall tab l a l', incl tab T -> NoDup (map s_long tab) -> read_fields tab l = Ok (a, l') -> forallb used l' = true ->
    exists os, tile T os l /\ (forall o, In o os -> In (s_long (oc_spec o)) (map s_long tab)) /\
      Forall2 (fun s x => fst x = s_long s /\ means reads (s_mult s) (values s os) (snd x)) tab a.
  Proof.
    intros D. induction tab as [|s tab IH]; intros l a l' Sub ND H U; cbn [OpModel.read_fields] in H.
    - injection H as <- <-. exists []. split; [now apply empty_tile|]. split; [intros o []|constructor].
    - destruct (read_field s l) as [[vs l1]| |] eqn:R; cbn [rbind fst snd] in H; try discriminate.
      destruct (read_fields tab l1) as [[a1 l2]| |] eqn:R'; cbn [rbind fst snd] in H; try discriminate. injection H as <- <-.
      cbn [map] in ND. apply NoDup_cons_iff in ND as (ND1 & ND2).
      destruct (IH l1 a1 l2 (fun x X => Sub x (or_intror X)) ND2 R' U) as (os1 & T1 & N1 & F1).
      assert (V1 : values s os1 = []). { apply values_notin. intros o O E. apply ND1. rewrite <- E. exact (N1 o O). }
      destruct (read_field_back T s l vs l1 os1 D (Sub s (or_introl eq_refl)) R T1 V1) as (os & T0 & W & M).
      exists os. split; [exact T0|]. split.
      + intros o O. destruct (without_in s os o O) as [X|X]; [right; apply N1; now rewrite <- W|left; now symmetry].
      + constructor; [auto|]. clear - F1 ND1 W. subst os1. induction F1 as [|s' x tab a (A & B) F1 IHF]; constructor.
        * split; [exact A|]. rewrite values_without in B; [exact B|]. intros E. apply ND1. rewrite <- E. now left.
        * apply IHF. intros X. apply ND1. now right.
  Qed.

  Theorem read_items_iff T l a : distinct T -> ~ In Gone l ->
    (read_items T l = Ok a <-> exists os, l = flat_map written os /\ says reads T os a).
  Proof.
    intros D G. unfold OpModel.read_items. split.
    - destruct (read_fields T l) as [[a1 l1]| |] eqn:R; cbn [rbind fst snd]; try discriminate. destruct (forallb used l1) eqn:U; [|discriminate]. intros [= <-].
      destruct (read_fields_back T D T l a1 l1 (incl_refl T) (proj1 D) R U) as (os & Ti & _ & F). exists os. split; [exact (flat_tile _ _ _ Ti G)|].
      split; [exact (tile_proper _ _ _ Ti)|exact F].
    - intros (os & -> & P & F). destruct (read_fields_ok T D T os _ a (incl_refl T) (proj1 D) (tile_flat T os P) F) as (os' & l' & -> & T' & S' & N').
      cbn [rbind fst snd]. assert (os' = []) as ->.
      { destruct os' as [|o os']; [reflexivity|]. destruct (N' o (or_introl eq_refl)). apply in_map. assert (O := S' o (or_introl eq_refl)).
        rewrite Forall_forall in P. exact (proj1 (P o O)). }
      now rewrite (tile_empty _ _ T').
  Qed.

  (* ---- crashes ---- *)
  Lemma take_arg_nopanic s l : take_arg s l <> Panic.
  Proof.
    induction l as [|i r IH]; cbn [take_arg]; [discriminate|]. destruct (named s i); [destruct r as [|[| | |] r]; discriminate|].
    destruct (take_arg s r); cbn [rbind]; congruence.
  Qed.
  Lemma take_arg_word s l w l' : take_arg s l = Ok (Some (w, l')) -> In (IWord w) l /\ forall x, In (IWord x) l' -> In (IWord x) l.
  Proof.
    revert w l'. induction l as [|i r IH]; intros w l'; cbn [take_arg]; [discriminate|]. destruct (named s i).
    - destruct r as [|[| |w0|] r]; try discriminate. intros [= <- <-]. split; [right; now left|]. intros x [X|[X|X]]; try discriminate. right. now right.
    - destruct (take_arg s r) as [[[w1 l1]|]| |]; cbn [rbind option_map fst snd]; try discriminate. intros [= <- <-].
      destruct (IH _ _ eq_refl) as (A & B). split; [now right|]. intros x [X|X]; [now left|right; auto].
  Qed.
  Lemma take_many_panic t s n : forall l, take_many t s n l = Panic -> exists w, In (IWord w) l /\ of_text t w = Panic.
  Proof.
    induction n as [|n IH]; intros l; cbn [OpModel.take_many]; [discriminate|].
    assert (NP := take_arg_nopanic s l). destruct (take_arg s l) as [[[w l1]|]| |] eqn:E; cbn [rbind]; try congruence.
    destruct (take_arg_word _ _ _ _ E) as (A & B). destruct (of_text t w) as [v| |] eqn:R; cbn [rbind]; try discriminate; [|eauto].
    destruct (take_many t s n l1) as [x| |] eqn:K; cbn [rbind]; try discriminate. intros _. destruct (IH _ K) as (w' & A' & R'). eauto.
  Qed.
  Lemma take_many_word t s n : forall l vs l', take_many t s n l = Ok (vs, l') -> forall x, In (IWord x) l' -> In (IWord x) l.
  Proof.
    induction n as [|n IH]; intros l vs l'; cbn [OpModel.take_many]; [intros [= <- <-]; auto|].
    destruct (take_arg s l) as [[[w l1]|]| |] eqn:E; cbn [rbind]; try discriminate; [|intros [= <- <-]; auto].
    destruct (take_arg_word _ _ _ _ E) as (A & B). destruct (of_text t w) as [v| |]; cbn [rbind]; try discriminate.
    destruct (take_many t s n l1) as [[vs2 l2]| |] eqn:K; cbn [rbind fst snd]; try discriminate. intros [= <- <-] x X. apply B. exact (IH _ _ _ K x X).
  Qed.
  Lemma take_switch_word s l l' : take_switch s l = Some l' -> forall x, In (IWord x) l' -> In (IWord x) l.
  Proof.
    revert l'. induction l as [|i r IH]; intros l'; cbn [take_switch]; [discriminate|]. destruct (named s i).
    - intros [= <-] x [X|X]; [discriminate|now right].
    - destruct (take_switch s r) as [l1|]; [|discriminate]. cbn [option_map]. intros [= <-] x [X|X]; [now left|right; now apply (IH _ eq_refl)].
  Qed.
  (* the type of a field that has values *)
  Definition type_of (m : mult) : option ty := match m with Switch => None | One t | May t | Or t _ | Many t => Some t end.
  Lemma read_field_panic s l : read_field s l = Panic -> exists t w, type_of (s_mult s) = Some t /\ In (IWord w) l /\ of_text t w = Panic.
  Proof.
    unfold OpModel.read_field. assert (NP := take_arg_nopanic s l). destruct (s_mult s) as [|t|t|t d|t]; cbn [type_of]; [discriminate| | | |].
    4: intros H; destruct (take_many_panic _ _ _ _ H) as (w & A & B); eauto.
    all: destruct (take_arg s l) as [[[w l1]|]| |] eqn:E; cbn [rbind]; try congruence;
      destruct (take_arg_word _ _ _ _ E) as (A & _); destruct (of_text t w) eqn:R; cbn [rbind]; try discriminate; eauto.
  Qed.
  Lemma read_field_word s l vs l' : read_field s l = Ok (vs, l') -> forall x, In (IWord x) l' -> In (IWord x) l.
  Proof.
    unfold OpModel.read_field. destruct (s_mult s) as [|t|t|t d|t].
    - destruct (take_switch s l) eqn:E; intros [= <- <-]; [exact (take_switch_word _ _ _ E)|auto].
    - destruct (take_arg s l) as [[[w l1]|]| |] eqn:E; cbn [rbind]; try discriminate. destruct (of_text t w); cbn [rbind]; try discriminate. intros [= <- <-]. exact (proj2 (take_arg_word _ _ _ _ E)).
    - destruct (take_arg s l) as [[[w l1]|]| |] eqn:E; cbn [rbind]; try discriminate; [|intros [= <- <-]; auto]. destruct (of_text t w); cbn [rbind]; try discriminate. intros [= <- <-]. exact (proj2 (take_arg_word _ _ _ _ E)).
    - destruct (take_arg s l) as [[[w l1]|]| |] eqn:E; cbn [rbind]; try discriminate; [|intros [= <- <-]; auto]. destruct (of_text t w); cbn [rbind]; try discriminate. intros [= <- <-]. exact (proj2 (take_arg_word _ _ _ _ E)).
    - apply take_many_word.
  Qed.
  Lemma read_fields_panic tab : forall l, read_fields tab l = Panic -> exists s t w, In s tab /\ type_of (s_mult s) = Some t /\ In (IWord w) l /\ of_text t w = Panic.
  Proof.
    induction tab as [|s tab IH]; intros l; cbn [OpModel.read_fields]; [discriminate|].
    destruct (read_field s l) as [[vs l1]| |] eqn:R; cbn [rbind fst snd]; try discriminate.
    - destruct (read_fields tab l1) as [x| |] eqn:K; cbn [rbind]; try discriminate. intros _. destruct (IH _ K) as (s' & t & w & A & B & C & E).
      exists s', t, w. split; [now right|]. split; [exact B|]. split; [exact (read_field_word _ _ _ _ R w C)|exact E].
    - intros _. destruct (read_field_panic _ _ R) as (t & w & B & C & E). exists s, t, w. split; [now left|]. auto.
  Qed.
  Lemma read_items_panic tab l : read_items tab l = Panic -> exists s t w, In s tab /\ type_of (s_mult s) = Some t /\ In (IWord w) l /\ of_text t w = Panic.
  Proof.
    unfold OpModel.read_items. destruct (read_fields tab l) as [x| |] eqn:E; cbn [rbind]; try discriminate.
    - destruct (forallb used (snd x)); discriminate.
    - intros _. now apply read_fields_panic.
  Qed.
End Read.
