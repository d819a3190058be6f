(* Lemmas about loading a configuration twice. *)
From Coq Require Import String.
From Verif Require Import Base Text TextOps AddrModel ConfModel RouteModel InhModel InhProofs NwModel NwSpec.
Open Scope N_scope.

Lemma in_insert {A} k (v : A) m x : In x (map fst (insert leqb k v m)) -> x = k \/ In x (map fst m).
Proof.
  induction m as [|[k' v'] m IH]; cbn [insert map In fst]; [intros [<-|[]]; left; reflexivity|].
  destruct (leqb k k') eqn:E; cbn [map In fst].
  - intros [<-|H]; [left; reflexivity|right; right; exact H].
  - intros [<-|H]; [right; left; reflexivity|]. destruct (IH H); [left; assumption|right; right; assumption].
Qed.
Lemma insert_distinct {A} k (v : A) m : NoDup (map fst m) -> NoDup (map fst (insert leqb k v m)).
Proof.
  induction m as [|[k' v'] m IH]; intros H; cbn [insert map fst]; [constructor; [intros []|constructor]|].
  inversion H as [|? ? H1 H2]; subst. destruct (leqb k k') eqn:E; cbn [map fst].
  - apply leqb_ok in E as <-. exact H.
  - constructor; [|apply IH; exact H2]. intros I. apply in_insert in I as [->|I]; [rewrite leqb_refl in E; discriminate|exact (H1 I)].
Qed.
Lemma over_distinct {A} (parent : tmap A) : forall child, NoDup (map fst child) -> NoDup (map fst (over child parent)).
Proof.
  induction parent as [|[k v] parent IH]; intros child H; [exact H|].
  change (over child ((k, v) :: parent)) with (over (insert leqb k v child) parent). apply IH, insert_distinct, H.
Qed.

Section Twice.
  Context {V : Type} (as_err : V -> V).
  Lemma over_again {A} (child parent : tmap A) n : NoDup (map fst parent) -> lookup leqb n (over (over child parent) parent) = lookup leqb n (over child parent).
  Proof. intros H. rewrite !lookup_over by exact H. destruct (lookup leqb n parent); reflexivity. Qed.
  Lemma under_again {A} (child parent : tmap A) n : lookup leqb n (under (under child parent) parent) = lookup leqb n (under child parent).
  Proof. rewrite !lookup_under. destruct (lookup leqb n child), (lookup leqb n parent); reflexivity. Qed.
  Lemma distinct_copy (c p : @common V) : distinct c -> distinct (pre_deal as_err (copy_from_parent c p)).
  Proof. intros [A B]. split; cbn [c_log_format c_log_names pre_deal copy_from_parent]; apply over_distinct; assumption. Qed.
  Lemma distinct_pre (c : @common V) : distinct c -> distinct (pre_deal as_err c).
  Proof. intros [A B]. split; assumption. Qed.
  Lemma distinct_main (c : @common V) : distinct c -> distinct (with_main c).
  Proof. intros [A B]. unfold with_main. destruct (has _ _ _); split; cbn [c_log_format c_log_names]; try assumption. apply insert_distinct, A. Qed.
  Lemma main_main (c : @common V) : with_main (pre_deal as_err (with_main c)) = pre_deal as_err (with_main c).
  Proof.
    unfold with_main at 2 3. destruct (has leqb (txt "main") (c_log_format c)) eqn:E.
    - unfold with_main. cbn [c_log_format pre_deal]. rewrite E. reflexivity.
    - unfold with_main. cbn [c_log_format pre_deal]. unfold has. rewrite (lookup_insert_eq leqb leqb_ok). reflexivity.
  Qed.

  (* copying is a matter of what is looked up *)
  Lemma copy_same (c c' p p' : @common V) : same_common c c' -> same_common p p' -> distinct p -> distinct p' ->
    same_common (pre_deal as_err (copy_from_parent c p)) (pre_deal as_err (copy_from_parent c' p')).
  Proof.
    intros (A1 & A2 & A3 & A4) (B1 & B2 & B3 & B4) [D1 D2] [E1 E2].
    split; [|split; [|split]]; cbn [c_set c_log_format c_log_names c_match pre_deal copy_from_parent].
    - intros k. rewrite A1, B1. reflexivity.
    - intros n. rewrite !lookup_over by assumption. rewrite A2, B2. reflexivity.
    - intros n. rewrite !lookup_over by assumption. rewrite A3, B3. reflexivity.
    - intros n. rewrite !lookup_under. rewrite A4, B4. reflexivity.
  Qed.
  Lemma same_refl (c : @common V) : same_common c c. Proof. split; [|split; [|split]]; reflexivity. Qed.
  Lemma same_sym (a b : @common V) : same_common a b -> same_common b a.
  Proof. intros (A1 & A2 & A3 & A4). split; [|split; [|split]]; intros; symmetry; auto. Qed.
  Lemma same_trans (a b c : @common V) : same_common a b -> same_common b c -> same_common a c.
  Proof. intros (A1 & A2 & A3 & A4) (B1 & B2 & B3 & B4). split; [|split; [|split]]; intros; [rewrite A1|rewrite A2|rewrite A3|rewrite A4]; auto. Qed.
  Lemma pre_pre (c : @common V) : (forall v, as_err (as_err v) = as_err v) -> same_common (pre_deal as_err (pre_deal as_err c)) (pre_deal as_err c).
  Proof.
    intros H. split; [|split; [|split]]; try reflexivity. intros k. cbn [c_set pre_deal]. destruct (is_error_log k), (c_set c k); cbn [option_map]; rewrite ?H; reflexivity.
  Qed.
  (* a second time from the same parent *)
  Lemma copy_copy (c p : @common V) : (forall v, as_err (as_err v) = as_err v) -> distinct p ->
    same_common (pre_deal as_err (copy_from_parent (pre_deal as_err (copy_from_parent c p)) p)) (pre_deal as_err (copy_from_parent c p)).
  Proof.
    intros H [D1 D2]. split; [|split; [|split]]; cbn [c_set c_log_format c_log_names c_match pre_deal copy_from_parent].
    - intros k. destruct (is_error_log k), (copied k), (c_set c k), (c_set p k); cbn [option_map]; rewrite ?H; reflexivity.
    - intros n. apply over_again, D1.
    - intros n. apply over_again, D2.
    - intros n. apply under_again.
  Qed.
End Twice.
