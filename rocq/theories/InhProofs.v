(* Lemmas about the inheritance of settings. *)
From Coq Require Import String.
From Verif Require Import Base Text TextOps AddrModel ConfModel RouteModel InhModel.
Open Scope N_scope.

Lemma lookup_under {A} n (parent : tmap A) : forall child,
  lookup leqb n (under child parent) = match lookup leqb n child with Some v => Some v | None => lookup leqb n parent end.
Proof.
  induction parent as [|[k v] parent IH]; intros child.
  - cbn. destruct (lookup leqb n child); reflexivity.
  - change (under child ((k, v) :: parent)) with (under (if has leqb k child then child else insert leqb k v child) parent).
    rewrite IH. cbn [lookup]. destruct (has leqb k child) eqn:Hk.
    + destruct (lookup leqb n child) eqn:E; [reflexivity|]. destruct (leqb n k) eqn:Ek; [|reflexivity].
      apply leqb_ok in Ek. subst. unfold has in Hk. rewrite E in Hk. discriminate.
    + destruct (leqb n k) eqn:Ek.
      * apply leqb_ok in Ek. subst. rewrite (lookup_insert_eq leqb leqb_ok). unfold has in Hk. destruct (lookup leqb k child); [discriminate|reflexivity].
      * rewrite (lookup_insert_ne leqb leqb_ok). 2:{ intros ->. rewrite leqb_refl in Ek. discriminate. }
        reflexivity.
Qed.
Lemma lookup_over_not {A} n (parent : tmap A) : forall child, ~ In n (map fst parent) -> lookup leqb n (over child parent) = lookup leqb n child.
Proof.
  induction parent as [|[k v] parent IH]; intros child H; [reflexivity|]. cbn in H.
  change (over child ((k, v) :: parent)) with (over (insert leqb k v child) parent). rewrite IH by tauto.
  apply (lookup_insert_ne leqb leqb_ok). intros ->. tauto.
Qed.
Lemma lookup_over {A} n (parent : tmap A) : forall child, NoDup (map fst parent) ->
  lookup leqb n (over child parent) = match lookup leqb n parent with Some v => Some v | None => lookup leqb n child end.
Proof.
  induction parent as [|[k v] parent IH]; intros child H; [reflexivity|]. inversion H as [|? ? Hk Hn]; subst.
  change (over child ((k, v) :: parent)) with (over (insert leqb k v child) parent). cbn [lookup]. destruct (leqb n k) eqn:Ek.
  - apply leqb_ok in Ek. subst. rewrite lookup_over_not by exact Hk. apply (lookup_insert_eq leqb leqb_ok).
  - rewrite IH by exact Hn. destruct (lookup leqb n parent); [reflexivity|].
    apply (lookup_insert_ne leqb leqb_ok). intros ->. rewrite leqb_refl in Ek. discriminate.
Qed.
