(* Shared vocabulary of the whole development: machine bytes, checked
   slices, results with an explicit panic outcome, and the association
   lists that stand for Rust's HashMap.  Nothing here is about one file
   of /repo in particular. *)
From Coq Require Export List Arith NArith ZArith Bool Lia.
From Coq Require Export ZifyBool ZifyNat ZifyN.
Export ListNotations.

Ltac Zify.zify_post_hook ::= Z.div_mod_to_equations.

Global Arguments N.add : simpl never.
Global Arguments N.sub : simpl never.
Global Arguments N.mul : simpl never.
Global Arguments N.div : simpl never.
Global Arguments N.modulo : simpl never.
Global Arguments N.pow : simpl never.
Global Arguments N.eqb : simpl never.
Global Arguments N.ltb : simpl never.
Global Arguments N.leb : simpl never.
Global Arguments N.of_nat : simpl never.
Global Arguments N.to_nat : simpl never.
Global Arguments Z.add : simpl never.
Global Arguments Z.sub : simpl never.
Global Arguments Z.mul : simpl never.
Global Arguments Z.div : simpl never.
Global Arguments Z.modulo : simpl never.
Global Arguments Z.pow : simpl never.

(* A byte is an N below 256; a byte string is a list of them. *)
Definition bytes := list N.
Definition byte_ok (b : N) : bool := (b <? 256)%N.
Definition bytes_ok (l : bytes) : bool := forallb byte_ok l.

(* Outcome of a Rust function that may return Err or panic. *)
Inductive res (E A : Type) : Type :=
| Ok (a : A)
| Err (e : E)
| Panic.
Arguments Ok {E A} a.
Arguments Err {E A} e.
Arguments Panic {E A}.

Definition rbind {E A B} (r : res E A) (f : A -> res E B) : res E B :=
  match r with Ok a => f a | Err e => Err e | Panic => Panic end.
Notation "'do' x <- r ; k" := (rbind r (fun x => k))
  (at level 200, x pattern, r at level 100, k at level 200).

(* Length as N, for comparisons against machine integers. *)
Definition nlen {A} (l : list A) : N := N.of_nat (length l).

(* Big-endian fixed-width integers: what bytes::BufMut::put_u16/put_u32 and
   webparse's encode_u24/read_u24 do.  Encoding truncates, exactly as `as`
   casts do. *)
Definition be8 (n : N) : bytes := [(n mod 256)%N].
Definition be16 (n : N) : bytes := [(n / 256 mod 256)%N; (n mod 256)%N].
Definition be24 (n : N) : bytes :=
  [(n / 65536 mod 256)%N; (n / 256 mod 256)%N; (n mod 256)%N].
Definition be32 (n : N) : bytes :=
  [(n / 16777216 mod 256)%N; (n / 65536 mod 256)%N; (n / 256 mod 256)%N; (n mod 256)%N].

(* HashMap as an association list; insertion replaces in place. *)
Section Assoc.
  Context {K V : Type} (eqb : K -> K -> bool).
  Fixpoint lookup (k : K) (m : list (K * V)) : option V :=
    match m with
    | [] => None
    | (k', v) :: m' => if eqb k k' then Some v else lookup k m'
    end.
  Fixpoint insert (k : K) (v : V) (m : list (K * V)) : list (K * V) :=
    match m with
    | [] => [(k, v)]
    | (k', v') :: m' => if eqb k k' then (k, v) :: m' else (k', v') :: insert k v m'
    end.
  Fixpoint remove (k : K) (m : list (K * V)) : list (K * V) :=
    match m with
    | [] => []
    | (k', v') :: m' => if eqb k k' then remove k m' else (k', v') :: remove k m'
    end.
  Definition has (k : K) (m : list (K * V)) : bool :=
    match lookup k m with Some _ => true | None => false end.
End Assoc.

Section AssocFacts.
  Context {K V : Type} (eqb : K -> K -> bool).
  Context (eqb_ok : forall a b, eqb a b = true <-> a = b).

  Lemma eqb_refl_of (a : K) : eqb a a = true.
  Proof. apply eqb_ok; reflexivity. Qed.

  Lemma eqb_neq_of (a b : K) : a <> b -> eqb a b = false.
  Proof.
    intros Hne. destruct (eqb a b) eqn:E; [|reflexivity].
    apply eqb_ok in E; contradiction.
  Qed.

  Lemma lookup_insert_eq (k : K) (v : V) m : lookup eqb k (insert eqb k v m) = Some v.
  Proof.
    induction m as [|[k' v'] m IH]; cbn [insert lookup].
    - rewrite eqb_refl_of; reflexivity.
    - destruct (eqb k k') eqn:E; cbn [lookup].
      + rewrite eqb_refl_of; reflexivity.
      + rewrite E; exact IH.
  Qed.

  Lemma lookup_insert_ne (k k2 : K) (v : V) m :
    k2 <> k -> lookup eqb k2 (insert eqb k v m) = lookup eqb k2 m.
  Proof.
    intros Hne. induction m as [|[k' v'] m IH]; cbn [insert lookup].
    - rewrite (eqb_neq_of k2 k Hne); reflexivity.
    - destruct (eqb k k') eqn:E; cbn [lookup].
      + apply eqb_ok in E; subst k'.
        rewrite (eqb_neq_of k2 k Hne); reflexivity.
      + destruct (eqb k2 k'); [reflexivity|exact IH].
  Qed.

  Lemma lookup_remove_eq (k : K) (m : list (K * V)) : lookup eqb k (remove eqb k m) = None.
  Proof.
    induction m as [|[k' v'] m IH]; cbn [remove lookup]; [reflexivity|].
    destruct (eqb k k') eqn:E; [exact IH|].
    cbn [lookup]; rewrite E; exact IH.
  Qed.

  Lemma lookup_remove_ne (k k2 : K) (m : list (K * V)) :
    k2 <> k -> lookup eqb k2 (remove eqb k m) = lookup eqb k2 m.
  Proof.
    intros Hne. induction m as [|[k' v'] m IH]; cbn [remove lookup]; [reflexivity|].
    destruct (eqb k k') eqn:E.
    - apply eqb_ok in E; subst k'. rewrite (eqb_neq_of k2 k Hne). exact IH.
    - cbn [lookup]. destruct (eqb k2 k'); [reflexivity|exact IH].
  Qed.

  Lemma lookup_In (k : K) (v : V) m : lookup eqb k m = Some v -> In (k, v) m.
  Proof.
    induction m as [|[k' v'] m IH]; cbn [lookup]; [discriminate|].
    destruct (eqb k k') eqn:E; intros H.
    - apply eqb_ok in E; subst k'. injection H as ->. left; reflexivity.
    - right; apply IH; exact H.
  Qed.

  Lemma lookup_None_notin (k : K) (m : list (K * V)) :
    lookup eqb k m = None <-> ~ In k (map fst m).
  Proof.
    induction m as [|[k' v'] m IH]; cbn [lookup map fst].
    - split; [intros _ []|reflexivity].
    - destruct (eqb k k') eqn:E.
      + apply eqb_ok in E; subst k'. split; [discriminate|].
        intros H; exfalso; apply H; left; reflexivity.
      + rewrite IH. split.
        * intros H [Hk|Hk]; [subst k'; rewrite eqb_refl_of in E; discriminate|].
          apply H; exact Hk.
        * intros H Hk; apply H; right; exact Hk.
  Qed.
End AssocFacts.

(* Equality test on byte strings / strings. *)
Fixpoint leqb (a b : list N) : bool :=
  match a, b with
  | [], [] => true
  | x :: a', y :: b' => (x =? y)%N && leqb a' b'
  | _, _ => false
  end.

Lemma leqb_ok (a b : list N) : leqb a b = true <-> a = b.
Proof.
  revert b; induction a as [|x a IH]; intros [|y b]; cbn [leqb];
    try (split; intros H; congruence).
  rewrite andb_true_iff, N.eqb_eq, IH. split.
  - intros [-> ->]; reflexivity.
  - intros H; injection H as -> ->; split; reflexivity.
Qed.

Lemma leqb_refl (a : list N) : leqb a a = true.
Proof. apply leqb_ok; reflexivity. Qed.

Definition oeqb (a b : option (list N)) : bool :=
  match a, b with
  | None, None => true
  | Some x, Some y => leqb x y
  | _, _ => false
  end.

(* Prefix test and prefix relation. *)
Definition is_prefix_of {A} (a b : list A) : Prop := exists c, b = a ++ c.

Lemma is_prefix_refl {A} (a : list A) : is_prefix_of a a.
Proof. exists []; symmetry; apply app_nil_r. Qed.

Lemma is_prefix_app {A} (a b : list A) : is_prefix_of a (a ++ b).
Proof. exists b; reflexivity. Qed.

Lemma is_prefix_trans {A} (a b c : list A) :
  is_prefix_of a b -> is_prefix_of b c -> is_prefix_of a c.
Proof. intros [x ->] [y ->]. exists (x ++ y). symmetry; apply app_assoc. Qed.

Lemma nlen_app {A} (a b : list A) : nlen (a ++ b) = (nlen a + nlen b)%N.
Proof. unfold nlen; rewrite app_length; lia. Qed.

Lemma nlen_cons {A} (x : A) l : nlen (x :: l) = (1 + nlen l)%N.
Proof. unfold nlen; cbn [length]; lia. Qed.

Lemma nlen_nil {A} : nlen (@nil A) = 0%N.
Proof. reflexivity. Qed.

Lemma firstn_app_exact {A} (a b : list A) : firstn (length a) (a ++ b) = a.
Proof. rewrite firstn_app, Nat.sub_diag, firstn_all, firstn_O, app_nil_r; reflexivity. Qed.

Lemma skipn_app_exact {A} (a b : list A) : skipn (length a) (a ++ b) = b.
Proof. rewrite skipn_app, Nat.sub_diag, skipn_all; reflexivity. Qed.

Lemma bytes_ok_app (a b : bytes) : bytes_ok (a ++ b) = bytes_ok a && bytes_ok b.
Proof. unfold bytes_ok; apply forallb_app. Qed.
