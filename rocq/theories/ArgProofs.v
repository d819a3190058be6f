(* Lemmas about the command line. *)
From Coq Require Import String.
From Verif Require Import Base Text TextOps AddrModel ConfModel RouteModel ArgModel ArgSpec.
Open Scope N_scope.

Lemma not_in_no_char d a : ~ In d a -> no_char d a = true.
Proof.
  intros H. unfold no_char. apply forallb_forall. intros x Hx. destruct (N.eqb_spec x d) as [->|]; [contradiction|reflexivity].
Qed.
Lemma split_last d y : no_char d y = true -> forall x acc, exists l,
  split_acc d acc (x ++ d :: y) = l ++ [y] /\ l <> [] /\ (forall p, l = [p] -> p = acc ++ x).
Proof.
  intros Hy. induction x as [|c x IH]; intros acc.
  - exists [acc]. cbn [app split_acc]. rewrite N.eqb_refl.
    split; [|split; [discriminate|intros p [= <-]; rewrite app_nil_r; reflexivity]].
    change (split_acc d [] y) with (split_on d y). rewrite split_on_one by exact Hy. reflexivity.
  - cbn [app split_acc]. destruct (c =? d).
    + destruct (IH []) as (l & E & Hl & _). exists (acc :: l). rewrite E. split; [reflexivity|].
      split; [discriminate|]. intros p [= _ El]. contradiction.
    + destruct (IH (acc ++ [c])) as (l & E & Hl & Hp). exists l. rewrite E. split; [reflexivity|]. split; [exact Hl|].
      intros p E'. rewrite (Hp p E'), <- app_assoc. reflexivity.
Qed.
Lemma file_name_spec p name : (p = name \/ exists dir, p = dir ++ 47 :: name) -> ~ In 47 name -> file_name p = name.
Proof.
  intros H Hn. apply not_in_no_char in Hn. unfold file_name. destruct H as [->|[dir ->]].
  - rewrite split_on_one by exact Hn. reflexivity.
  - destruct (split_last 47 name Hn dir []) as (l & E & _). unfold split_on. rewrite E. apply last_last.
Qed.
Lemma extension_some p e : has_extension p e -> extension p = Some e.
Proof.
  intros (dir & stem & H & Hs & H1 & H2 & H3).
  assert (F : file_name p = stem ++ 46 :: e).
  { apply file_name_spec; [destruct H as [->| ->]; [left; reflexivity|right; exists dir; reflexivity]|].
    intros Hin. apply in_app_or in Hin as [Hin|[Hin|Hin]]; [contradiction|discriminate|contradiction]. }
  unfold extension. rewrite F. destruct (split_last 46 e (not_in_no_char _ _ H2) stem []) as (l & E & Hl & Hp).
  unfold split_on. rewrite E. destruct l as [|a [|b l]].
  - contradiction.
  - rewrite (Hp a eq_refl). cbn [app]. destruct stem; [contradiction|reflexivity].
  - assert (L : List.last (a :: b :: l ++ [e]) [] = e).
    { change (a :: b :: l ++ [e]) with ((a :: b :: l) ++ [e]). apply last_last. }
    cbn [app]. destruct (l ++ [e]) as [|z zs] eqn:El; [destruct l; discriminate|].
    destruct a; rewrite L; reflexivity.
Qed.
Lemma extension_none p : no_extension p -> extension p = None.
Proof.
  intros (dir & name & H & H1 & H2). unfold extension.
  assert (F : file_name p = name).
  { apply file_name_spec; [|exact H1]. destruct H as [->| ->]; [left; reflexivity|right; exists dir; reflexivity]. }
  rewrite F.
  destruct H2 as [H2|(rest & -> & H2)].
  - rewrite split_on_one by (apply not_in_no_char; exact H2). destruct name; reflexivity.
  - change (46 :: rest) with ([] ++ 46 :: rest). rewrite split_on_app by reflexivity.
    rewrite split_on_one by (apply not_in_no_char; exact H2). reflexivity.
Qed.

Lemma filter_without f l : without f l (filter (fun s => negb (leqb s f)) l).
Proof.
  induction l as [|x l IH]; [constructor|]. cbn [filter]. destruct (leqb x f) eqn:E; cbn [negb].
  - apply leqb_ok in E as ->. constructor. exact IH.
  - constructor; [|exact IH]. intros ->. assert (leqb f f = true) by (apply leqb_ok; reflexivity). congruence.
Qed.
Lemma without_not_in f l l' : without f l l' -> ~ In f l'.
Proof. induction 1 as [| |x l l' Hx _ IH]; [intros []|assumption|intros [E|E]; [congruence|contradiction]]. Qed.

Lemma success_ok w : success w = true <-> ended_well w.
Proof.
  unfold ended_well. destruct w as [[z|]|]; cbn; [|split; discriminate|split; discriminate].
  destruct z; split; intros H; try discriminate; try reflexivity; injection H; discriminate.
Qed.
Lemma supervise_failing args fs : Forall (fun w => ~ ended_well w) fs ->
  supervise args fs = (repeat args (S (length fs)), false).
Proof.
  induction 1 as [|w fs Hw _ IH]; [reflexivity|]. cbn [supervise length repeat].
  destruct (success w) eqn:E; [apply success_ok in E; contradiction|]. rewrite IH. reflexivity.
Qed.
Lemma supervise_ends args fs w rest : Forall (fun w => ~ ended_well w) fs -> ended_well w ->
  supervise args (fs ++ w :: rest) = (repeat args (S (length fs)), true).
Proof.
  intros H Hw. induction H as [|x fs Hx _ IH]; cbn [app supervise].
  - apply success_ok in Hw. rewrite Hw. reflexivity.
  - destruct (success x) eqn:E; [apply success_ok in E; contradiction|]. rewrite IH. reflexivity.
Qed.

Lemma lower_spelled m t : Forall (fun c => 97 <= c <= 122 \/ c < 65) t -> map lower m = t <-> spelled_as t m.
Proof.
  revert t. induction m as [|c m IH]; intros t Ht; cbn [map].
  - split; [intros <-; constructor|intros H; inversion H; reflexivity].
  - destruct t as [|x t]; [split; [discriminate|intros H; inversion H]|].
    apply Forall_cons_iff in Ht as [Hx Ht]. specialize (IH t Ht).
    assert (L : lower c = x <-> same_letter x c).
    { unfold lower, same_letter. destruct (N.leb_spec 65 c), (N.leb_spec c 90); cbn [andb]; lia. }
    split; intros H.
    + injection H as H1 H2. constructor; [apply L; exact H1|apply IH; exact H2].
    + inversion H; subst. f_equal; [apply L|apply IH]; assumption.
Qed.
Lemma mode_ok_iff m : mode_ok m = true <-> exists name k, In (name, k) modes /\ spelled_as name m.
Proof.
  assert (Z : forall t, Forall (fun c => 97 <= c <= 122 \/ c < 65) t -> leqb (map lower m) t = true <-> spelled_as t m).
  { intros t Ht. rewrite <- (lower_spelled m t Ht). apply leqb_ok. }
  unfold mode_ok. cbv zeta. rewrite !Bool.orb_true_iff.
  rewrite (Z (txt "ws2tcp")), (Z (txt "tcp2ws")), (Z (txt "tcp2wss"));
    try (cbv -[N.le N.lt]; repeat (apply Forall_cons; [lia|]); apply Forall_nil).
  split.
  - intros [[H|H]|H]; do 2 eexists; (split; [|exact H]); cbn; tauto.
  - intros (name & k & [E|[E|[E|[]]]] & H); injection E as <- _; tauto.
Qed.
