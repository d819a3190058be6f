(* C168, C169: the keys of a configuration file. *)
From Coq Require Import Lia.
From Coq Require Import String.
From Verif Require Import Base Text TextOps FmModel FmSpec.
Open Scope N_scope.

Section Ind.
  Context (P : schema -> Prop) (HL : forall k, P (Leaf k)) (HO : forall s, P s -> P (Opt s)) (HV : forall s, P s -> P (Vec s)) (HM : forall s, P s -> P (Map s))
    (HT : forall s, P s -> P (TextOr s)) (HS : forall fs, (forall k b s, In (k, (b, s)) fs -> P s) -> P (Struct fs)).
  Fixpoint schema_deep (s : schema) : P s.
  Proof.
    destruct s as [k|s|s|s|s|fs]; [apply HL|apply HO, schema_deep|apply HV, schema_deep|apply HM, schema_deep|apply HT, schema_deep|].
    apply HS. induction fs as [|[k0 [b0 s0]] fs IH]; intros k b s H; [destruct H|]. destruct H as [H|H].
    - injection H as _ _ <-. apply schema_deep.
    - exact (IH k b s H).
  Defined.
End Ind.

Section Thms.
  Context (accepts : leaf -> val -> bool).
  Notation read := (read accepts).
  Notation fits := (fits accepts).

  (* the fields of a struct, one after the other *)
  Fixpoint fields (t : list (text * val)) (fs : list (text * (bool * schema))) : option (list (text * val)) :=
    match fs with
    | [] => Some []
    | (k, (m, s)) :: fs' =>
      match lookup leqb k t with
      | None => if m then None else fields t fs'
      | Some x => match read s x with Some y => match fields t fs' with Some r => Some ((k, y) :: r) | None => None end | None => None end
      end
    end.
  Lemma read_struct fs t : read (Struct fs) (VTab t) = option_map VTab (fields t fs).
  Proof.
    cbn [FmModel.read]. f_equal. induction fs as [|[k [m s]] fs IH]; [reflexivity|]. cbn [fields]. destruct (lookup leqb k t); [|destruct m; auto].
    rewrite IH. reflexivity.
  Qed.
  Lemma all_some {A B} (f : A -> option B) l r : all (map f l) = Some r <-> Forall2 (fun x y => f x = Some y) l r.
  Proof.
    revert r. induction l as [|x l IH]; intros r; cbn [map all].
    - split; [intros [= <-]; constructor|intros H; inversion H; reflexivity].
    - split.
      + destruct (f x) as [y|] eqn:E; [|discriminate]. destruct (all (map f l)) as [q|]; [|discriminate]. intros [= <-]. constructor; [exact E|]. apply IH. reflexivity.
      + intros H. inversion H as [|? y ? q E F]; subst. rewrite E. apply IH in F. rewrite F. reflexivity.
  Qed.
  Lemma all_exists {A B} (f : A -> option B) l : (forall x, In x l -> exists y, f x = Some y) -> exists r, all (map f l) = Some r.
  Proof.
    induction l as [|x l IH]; intros H; [eexists; reflexivity|]. cbn [map all]. destruct (H x (or_introl eq_refl)) as (y & ->).
    destruct IH as (r & ->); [intros z Z; apply H; right; exact Z|]. eauto.
  Qed.
  Lemma fields_some t fs r : fields t fs = Some r ->
    (forall k s, In (k, (true, s)) fs -> lookup leqb k t <> None) /\
    (forall k m s x, In (k, (m, s)) fs -> lookup leqb k t = Some x -> exists y, read s x = Some y /\ In (k, y) r) /\
    (forall k y, In (k, y) r -> exists m s x, In (k, (m, s)) fs /\ lookup leqb k t = Some x /\ read s x = Some y).
  Proof.
    revert r. induction fs as [|[k0 [m0 s0]] fs IH]; intros r H.
    - injection H as <-. split; [intros ? ? []|]. split; [intros ? ? ? ? []|intros ? ? []].
    - cbn [fields] in H. destruct (lookup leqb k0 t) as [x0|] eqn:L.
      + destruct (read s0 x0) as [y0|] eqn:R; [|discriminate]. destruct (fields t fs) as [q|]; [|discriminate]. injection H as <-. destruct (IH q eq_refl) as (A & B & C). split; [|split].
        * intros k s [I1|I1]; [injection I1 as <- _ _; congruence|eauto].
        * intros k m s x [I1|I1] Lk; [injection I1 as <- <- <-; rewrite L in Lk; injection Lk as <-; exists y0; split; [exact R|left; reflexivity]|].
          destruct (B k m s x I1 Lk) as (y & Y1 & Y2). exists y. split; [exact Y1|right; exact Y2].
        * intros k y [I1|I1]; [injection I1 as <- <-; exists m0, s0, x0; split; [left; reflexivity|auto]|]. destruct (C k y I1) as (m & s & x & X1 & X2). exists m, s, x. split; [right; exact X1|exact X2].
      + destruct m0; [discriminate|]. destruct (IH r H) as (A & B & C). split; [|split].
        * intros k s [I1|I1]; [discriminate|eauto].
        * intros k m s x [I1|I1] Lk; [injection I1 as <- <- <-; congruence|eauto].
        * intros k y I1. destruct (C k y I1) as (m & s & x & X1 & X2). exists m, s, x. split; [right; exact X1|exact X2].
  Qed.
  Lemma fields_exists t fs : (forall k s, In (k, (true, s)) fs -> lookup leqb k t <> None) ->
    (forall k m s x, In (k, (m, s)) fs -> lookup leqb k t = Some x -> exists y, read s x = Some y) -> exists r, fields t fs = Some r.
  Proof.
    induction fs as [|[k0 [m0 s0]] fs IH]; intros A B; [eexists; reflexivity|]. cbn [fields].
    destruct IH as (q & Q); [intros k s I1; apply (A k s); right; exact I1|intros k m s x I1; apply (B k m s x); right; exact I1|].
    destruct (lookup leqb k0 t) as [x0|] eqn:L.
    - destruct (B k0 m0 s0 x0 (or_introl eq_refl) L) as (y & ->). rewrite Q. eauto.
    - destruct m0; [exfalso; exact (A k0 s0 (or_introl eq_refl) L)|eauto].
  Qed.
  (* names of what is taken: different, in the order of the fields *)
  Lemma fields_names t fs r : fields t fs = Some r -> NoDup (map fst fs) -> NoDup (map fst r) /\ forall k, In k (map fst r) -> In k (map fst fs).
  Proof.
    revert r. induction fs as [|[k0 [m0 s0]] fs IH]; intros r H N; [injection H as <-; split; [constructor|auto]|]. cbn [map fst] in N. inversion N as [|? ? N1 N2]; subst.
    cbn [fields] in H. destruct (lookup leqb k0 t) as [x0|].
    - destruct (read s0 x0); [|discriminate]. destruct (fields t fs) as [q|]; [|discriminate]. injection H as <-. destruct (IH q eq_refl N2) as (A & B). cbn [map fst]. split.
      + constructor; [intros I1; apply N1, B; exact I1|exact A].
      + intros k [I1|I1]; [left; exact I1|right; apply B; exact I1].
    - destruct m0; [discriminate|]. destruct (IH r H N2) as (A & B). split; [exact A|]. intros k I1. right. apply B. exact I1.
  Qed.
  Lemma nodup_lookup {A} (l : list (text * A)) k y : NoDup (map fst l) -> In (k, y) l -> lookup leqb k l = Some y.
  Proof.
    induction l as [|[k0 y0] l IH]; intros N I1; [destruct I1|]. cbn [map fst] in N. inversion N as [|? ? N1 N2]; subst. cbn [lookup]. destruct I1 as [I1|I1].
    - injection I1 as <- <-. rewrite leqb_refl. reflexivity.
    - destruct (leqb k k0) eqn:E; [apply leqb_ok in E; subst; exfalso; apply N1, (in_map fst _ _ I1)|apply IH; assumption].
  Qed.
  Lemma map_in (f : val -> option val) (t r : list (text * val)) : all (map (fun kv => option_map (pair (fst kv)) (f (snd kv))) t) = Some r ->
    (forall k x, In (k, x) t -> exists y, f x = Some y /\ In (k, y) r) /\ (forall k y, In (k, y) r -> exists x, f x = Some y /\ In (k, x) t).
  Proof.
    revert r. induction t as [|[k0 x0] t IH]; intros r; cbn [map all fst snd]; [intros [= <-]; split; intros ? ? []|].
    destruct (f x0) as [y0|] eqn:E; cbn [option_map]; [|discriminate]. destruct (all _) as [q|]; [|discriminate]. intros [= <-]. destruct (IH q eq_refl) as (A & B). split.
    - intros k x [I1|I1]; [injection I1 as <- <-; exists y0; split; [exact E|left; reflexivity]|]. destruct (A k x I1) as (y & Y1 & Y2). exists y. split; [exact Y1|right; exact Y2].
    - intros k y [I1|I1]; [injection I1 as <- <-; exists x0; split; [exact E|left; reflexivity]|]. destruct (B k y I1) as (x & Y1 & Y2). exists x. split; [exact Y1|right; exact Y2].
  Qed.
  Lemma nth_pair {A B} (R : A -> B -> Prop) l q : Forall2 R l q -> forall i,
    (forall x, nth_error l i = Some x -> exists y, R x y /\ nth_error q i = Some y) /\ (forall y, nth_error q i = Some y -> exists x, R x y /\ nth_error l i = Some x).
  Proof.
    induction 1 as [|a b l q F E IH]; intros [|i]; cbn [nth_error]; split; intros z Z; try discriminate; try (injection Z as <-; eauto); apply IH; exact Z.
  Qed.

  (* a value is read exactly if each known place holds a value of the right form *)
  Lemma exact_read : forall s v, (exists r, read s v = Some r) <-> (forall p s' x, part s v p s' x -> fits s' x).
  Proof.
    induction s as [k|s IH|s IH|s IH|s IH|fs IH] using schema_deep; intros v.
    - cbn [FmModel.read]. split.
      + intros (r & H) p s' x PT. inversion PT; subst. cbn [FmSpec.fits]. destruct (accepts k x); [reflexivity|discriminate].
      + intros H. specialize (H [] (Leaf k) v (part_here _ _)). cbn [FmSpec.fits] in H. rewrite H. eauto.
    - split.
      + intros (r & H) p s' x PT. inversion PT as [|? ? ? ? ? NN PT'| | | |]; subst; [exact I|]. apply (proj1 (IH v)) with (p := p); [|exact PT']. cbn [FmModel.read] in H. destruct v; [congruence| | |]; eauto.
      + intros H. cbn [FmModel.read]. destruct v; [eauto| | |]; apply IH; intros p s' x PT; apply (H p); constructor; try discriminate; exact PT.
    - split.
      + intros (r & H) p s' x PT. cbn [FmModel.read] in H. destruct v as [| |l|]; try discriminate. destruct (all (map (read s) l)) as [q|] eqn:E; [|discriminate]. apply all_some in E.
        inversion PT as [| |? ? i y ? ? ? N PT'| | |]; subst; [eexists; reflexivity|]. refine (proj1 (IH y) _ _ _ _ PT').
        clear - E N. revert i N. induction E as [|a b l q F E IH]; intros [|i] N; cbn [nth_error] in N; try discriminate; [injection N as <-; eauto|eauto].
      + intros H. destruct (H [] (Vec s) v (part_here _ _)) as (l & ->). cbn [FmModel.read]. destruct (all_exists (read s) l) as (r & ->); [|cbn [option_map]; eauto].
        intros x I1. apply In_nth_error in I1. destruct I1 as (i & N). apply IH. intros p s' z PT. apply (H (At i :: p)). econstructor; eassumption.
    - split.
      + intros (r & H) p s' x PT. cbn [FmModel.read] in H. destruct v as [| | |t]; try discriminate. destruct (all _) as [q|] eqn:E in H; [|discriminate].
        inversion PT as [| | |? ? k y ? ? ? L PT'| |]; subst; [eexists; reflexivity|]. destruct (map_in (read s) t q E) as (M & _). destruct (M k y L) as (z & Z & _).
        refine (proj1 (IH y) _ _ _ _ PT'). eauto.
      + intros H. destruct (H [] (Map s) v (part_here _ _)) as (t & ->). cbn [FmModel.read]. destruct (all_exists (fun kv => option_map (pair (fst kv)) (read s (snd kv))) t) as (r & ->); [|cbn [option_map]; eauto].
        intros [k x] I1. cbn [fst snd]. assert (E : exists y, read s x = Some y); [|destruct E as (y & ->); eexists; reflexivity].
        apply IH. intros p s' z PT. apply (H (Key k :: p)). econstructor; eassumption.
    - split.
      + intros (r & H) p s' x PT. cbn [FmModel.read] in H. inversion PT as [| | | |? t ? ? ? PT'|]; subst.
        * cbn [FmSpec.fits]. destruct x as [| | |t]; try (right; destruct (accepts (txt "str") _); [reflexivity|discriminate]). left. eauto.
        * refine (proj1 (IH (VTab t)) _ _ _ _ PT'). eauto.
      + intros H. cbn [FmModel.read]. destruct (H [] (TextOr s) v (part_here _ _)) as [(t & ->)|A].
        * apply IH. intros p s' x PT. apply (H p). constructor. exact PT.
        * destruct v as [| | |t]; try (rewrite A; eauto; fail). apply IH. intros p s' x PT. apply (H p). constructor. exact PT.
    - split.
      + intros (r & H) p s' x PT. destruct v as [| | |t]; try discriminate. rewrite read_struct in H. destruct (fields t fs) as [q|] eqn:E; [|discriminate]. destruct (fields_some t fs q E) as (A & B & _).
        inversion PT as [| | | | |? ? k m s0 y ? ? ? I1 L PT']; subst; [exists t; split; [reflexivity|exact A]|]. destruct (B k m s0 y I1 L) as (z & Z & _). refine (proj1 (IH k m s0 I1 y) _ _ _ _ PT'). eauto.
      + intros H. destruct (H [] (Struct fs) v (part_here _ _)) as (t & -> & A). rewrite read_struct. destruct (fields_exists t fs A) as (r & ->); [|cbn [option_map]; eauto].
        intros k m s x I1 L. apply (IH k m s I1 x). intros p s' z PT. apply (H (Key k :: p)). econstructor; eassumption.
  Qed.

  (* reading keeps the kind of a value *)
  Definition kind (v : val) : N := match v with VNull => 0 | VOne _ => 1 | VList _ => 2 | VTab _ => 3 end.
  Lemma read_kind s : forall v r, read s v = Some r -> kind r = kind v.
  Proof.
    induction s as [k|s IH|s IH|s IH|s IH|fs IH] using schema_deep; intros v r H.
    - cbn [FmModel.read] in H. destruct (accepts k v); [|discriminate]. injection H as <-. reflexivity.
    - cbn [FmModel.read] in H. destruct v; [injection H as <-; reflexivity| | |]; exact (IH _ _ H).
    - cbn [FmModel.read] in H. destruct v as [| |l|]; try discriminate. destruct (all _); [|discriminate]. injection H as <-. reflexivity.
    - cbn [FmModel.read] in H. destruct v as [| | |t]; try discriminate. destruct (all _) in H; [|discriminate]. injection H as <-. reflexivity.
    - cbn [FmModel.read] in H. destruct v; try (destruct (accepts (txt "str") _); [|discriminate]; injection H as <-; reflexivity). exact (IH _ _ H).
    - destruct v as [| | |t]; try discriminate. rewrite read_struct in H. destruct (fields t fs); [|discriminate]. injection H as <-. reflexivity.
  Qed.

  (* what is taken is, at each known place, what is written there *)
  Lemma taken : forall s, wf s -> forall v r, read s v = Some r -> forall p k x, part s v p (Leaf k) x <-> part s r p (Leaf k) x.
  Proof.
    induction s as [k|s IH|s IH|s IH|s IH|fs IH] using schema_deep; intros W v r H p k0 x.
    - cbn [FmModel.read] in H. destruct (accepts k v); [|discriminate]. injection H as <-. reflexivity.
    - inversion W as [|? W1| | | |]; subst. pose proof (read_kind _ _ _ H) as KD. cbn [FmModel.read] in H. destruct (match v with VNull => true | _ => false end) eqn:NV.
      + destruct v; try discriminate. injection H as <-. reflexivity.
      + assert (H' : read s v = Some r) by (destruct v; [discriminate| | |]; exact H). specialize (IH W1 v r H' p k0 x).
        split; intros PT; inversion PT as [|? ? ? ? ? NN PT'| | | |]; subst; apply part_opt; try (apply IH; exact PT').
        * intros E. rewrite E in KD. destruct v; discriminate.
        * intros E. rewrite E in NV. discriminate.
    - inversion W as [| |? W1| | |]; subst. cbn [FmModel.read] in H. destruct v as [| |l|]; try discriminate. destruct (all (map (read s) l)) as [q|] eqn:E; [|discriminate]. injection H as <-.
      apply all_some in E. pose proof (nth_pair _ _ _ E) as NP. split; intros PT; inversion PT as [| |? ? i y ? ? ? N PT'| | |]; subst; destruct (NP i) as (NA & NB).
      + destruct (NA y N) as (z & Z & NZ). econstructor; [exact NZ|]. apply (IH W1 y z Z). exact PT'.
      + destruct (NB y N) as (z & Z & NZ). econstructor; [exact NZ|]. apply (IH W1 z y Z). exact PT'.
    - inversion W as [| | |? W1| |]; subst. cbn [FmModel.read] in H. destruct v as [| | |t]; try discriminate. destruct (all _) as [q|] eqn:E in H; [|discriminate]. injection H as <-.
      destruct (map_in (read s) t q E) as (NA & NB). split; intros PT; inversion PT as [| | |? ? k y ? ? ? N PT'| |]; subst.
      + destruct (NA k y N) as (z & Z & NZ). econstructor; [exact NZ|]. apply (IH W1 y z Z). exact PT'.
      + destruct (NB k y N) as (z & Z & NZ). econstructor; [exact NZ|]. apply (IH W1 z y Z). exact PT'.
    - inversion W as [| | | |? W1|]; subst. cbn [FmModel.read] in H. destruct v as [| | |t]; try (destruct (accepts (txt "str") _); [|discriminate]; injection H as <-; reflexivity).
      pose proof (read_kind _ _ _ H) as KD. destruct r as [| | |u]; try discriminate. specialize (IH W1 _ _ H p k0 x).
      split; intros PT; inversion PT as [| | | |? ? ? ? ? PT'|]; subst; constructor; apply IH; exact PT'.
    - inversion W as [| | | | |? ND WF]; subst. destruct v as [| | |t]; try discriminate. rewrite read_struct in H. destruct (fields t fs) as [q|] eqn:E; [|discriminate]. injection H as <-.
      destruct (fields_some t fs q E) as (_ & B & C). destruct (fields_names t fs q E ND) as (NQ & _). split; intros PT; inversion PT as [| | | | |? ? k m s y ? ? ? I1 L PT']; subst.
      + destruct (B k m s y I1 L) as (z & Z & IZ). apply (part_field fs q k m s z); [exact I1|apply nodup_lookup; assumption|]. apply (IH k m s I1 (WF k m s I1) y z Z). exact PT'.
      + apply (lookup_In leqb leqb_ok) in L. destruct (C k y L) as (m' & s' & z & I2 & LZ & Z).
        assert (SE : (m', s') = (m, s)).
        { pose proof (nodup_lookup fs k (m, s) ND I1) as X1. pose proof (nodup_lookup fs k (m', s') ND I2) as X2. congruence. }
        injection SE as -> ->. apply (part_field fs t k m s z); [exact I1|exact LZ|]. apply (IH k m s I1 (WF k m s I1) z y Z). exact PT'.
  Qed.
  (* a key that means nothing changes nothing *)
  Lemma unknown : forall s, wf s -> forall v v', adds s v v' -> read s v' = read s v.
  Proof.
    assert (LA : forall (a b : list (text * val)) k x k', k' <> k -> lookup leqb k' (a ++ (k, x) :: b) = lookup leqb k' (a ++ b)).
    { induction a as [|[k1 x1] a IH]; intros b k x k' N; cbn [app lookup]; [destruct (leqb k' k) eqn:E; [apply leqb_ok in E; contradiction|reflexivity]|]. destruct (leqb k' k1); [reflexivity|apply IH; exact N]. }
    assert (LB : forall (a b : list (text * val)) k x, ~ In k (map fst a) -> lookup leqb k (a ++ (k, x) :: b) = Some x).
    { induction a as [|[k1 x1] a IH]; intros b k x N; cbn [app lookup]; [rewrite leqb_refl; reflexivity|]. destruct (leqb k k1) eqn:E; [apply leqb_ok in E; subst; exfalso; apply N; left; reflexivity|].
      apply IH. intros I1. apply N. right. exact I1. }
    assert (FX : forall t t' fs, (forall k m s, In (k, (m, s)) fs -> match lookup leqb k t with Some x => exists x', lookup leqb k t' = Some x' /\ read s x' = read s x | None => lookup leqb k t' = None end) -> fields t' fs = fields t fs).
    { intros t t'. induction fs as [|[k [m s]] fs IH]; intros H; [reflexivity|]. cbn [fields]. pose proof (H k m s (or_introl eq_refl)) as H1. rewrite IH by (intros k1 m1 s1 I1; apply (H k1 m1 s1); right; exact I1).
      destruct (lookup leqb k t) as [x|]; [destruct H1 as (x' & -> & ->)|rewrite H1]; reflexivity. }
    assert (KD : forall s v v', adds s v v' -> kind v' = kind v /\ 2 <= kind v) by (induction 1; cbn [kind] in *; try tauto; split; try reflexivity; discriminate).
    intros s W v v' A. induction A as [fs a k x b N|s v v' A IH|s a v v' b A IH|s a k v v' b A IH|s t v' A IH|fs a k m s v v' b I1 N A IH].
    - rewrite !read_struct. f_equal. apply FX. intros k' m s I1. rewrite LA.
      + destruct (lookup leqb k' (a ++ b)); eauto.
      + intros ->. apply N. exact (in_map fst _ _ I1).
    - inversion W; subst. cbn [FmModel.read]. destruct (KD _ _ _ A) as (K1 & K2). destruct v; cbn [kind] in *; try lia; destruct v'; cbn [kind] in *; try lia; apply IH; assumption.
    - inversion W; subst. cbn [FmModel.read]. f_equal. rewrite !map_app. cbn [map]. rewrite IH by assumption. reflexivity.
    - inversion W; subst. cbn [FmModel.read]. f_equal. rewrite !map_app. cbn [map fst snd]. rewrite IH by assumption. reflexivity.
    - inversion W; subst. cbn [FmModel.read]. destruct (KD _ _ _ A) as (K1 & K2). destruct v'; cbn [kind] in *; try lia; apply IH; assumption.
    - inversion W as [| | | | |? ND WF]; subst. rewrite !read_struct. f_equal. apply FX. intros k' m' s' I2. destruct (leqb k' k) eqn:E.
      + apply leqb_ok in E. subst k'. rewrite !LB by exact N. exists v'. split; [reflexivity|]. 
        assert (SE : (m', s') = (m, s)) by (pose proof (nodup_lookup fs k (m, s) ND I1); pose proof (nodup_lookup fs k (m', s') ND I2); congruence).
        injection SE as -> ->. apply IH. exact (WF k m s I1).
      + assert (NE : k' <> k) by (intros ->; rewrite leqb_refl in E; discriminate). rewrite !LA by exact NE. destruct (lookup leqb k' (a ++ b)); eauto.
  Qed.
  (* what is not there is not invented *)
  Lemma invented s : forall v r p, read s v = Some r -> sub v p = None -> sub r p = None.
  Proof.
    induction s as [k|s IH|s IH|s IH|s IH|fs IH] using schema_deep; intros v r p H N.
    - cbn [FmModel.read] in H. destruct (accepts k v); [|discriminate]. injection H as <-. exact N.
    - cbn [FmModel.read] in H. destruct v; [injection H as <-; exact N| | |]; exact (IH _ _ _ H N).
    - cbn [FmModel.read] in H. destruct v as [| |l|]; try discriminate. destruct (all (map (read s) l)) as [q|] eqn:E; [|discriminate]. injection H as <-. apply all_some in E.
      destruct p as [|[k|i] p]; [discriminate|reflexivity|]. cbn [sub] in *. destruct (nth_error q i) as [y|] eqn:Y; [|reflexivity]. destruct (nth_pair _ _ _ E i) as (_ & B). destruct (B y Y) as (x & X & NX). rewrite NX in N. exact (IH _ _ _ X N).
    - cbn [FmModel.read] in H. destruct v as [| | |t]; try discriminate. destruct (all _) as [q|] eqn:E in H; [|discriminate]. injection H as <-.
      destruct p as [|[k|i] p]; [discriminate| |reflexivity]. cbn [sub] in *. revert q E N. induction t as [|[k0 x0] t IHt]; intros q E N; cbn [map all fst snd] in E; [injection E as <-; reflexivity|].
      destruct (read s x0) as [y0|] eqn:R; cbn [option_map] in E; [|discriminate]. destruct (all _) as [q'|] eqn:E' in E; [|discriminate]. injection E as <-. cbn [lookup] in *. destruct (leqb k k0); [exact (IH _ _ _ R N)|exact (IHt q' E' N)].
    - cbn [FmModel.read] in H. destruct v as [| | |t]; try (destruct (accepts (txt "str") _); [|discriminate]; injection H as <-; exact N). exact (IH _ _ _ H N).
    - destruct v as [| | |t]; try discriminate. rewrite read_struct in H. destruct (fields t fs) as [q|] eqn:E; [|discriminate]. injection H as <-.
      destruct p as [|[k|i] p]; [discriminate| |reflexivity]. cbn [sub] in *. destruct (lookup leqb k q) as [y|] eqn:Y; [|reflexivity]. apply (lookup_In leqb leqb_ok) in Y.
      destruct (fields_some t fs q E) as (_ & _ & C). destruct (C k y Y) as (m & s & x & I1 & L & R). rewrite L in N. exact (IH k m s I1 _ _ _ R N).
  Qed.
End Thms.

(* a key that is no field is not taken *)
Lemma no_field accepts fs t r k : read accepts (Struct fs) (VTab t) = Some r -> wf (Struct fs) -> existsb (leqb k) (map fst fs) = false -> sub r [Key k] = None.
Proof.
  intros H W N. rewrite read_struct in H. destruct (fields accepts t fs) as [q|] eqn:E; [|discriminate]. injection H as <-. cbn [sub].
  inversion W as [| | | | |? ND _]; subst. destruct (fields_names accepts t fs q E ND) as (_ & B). destruct (lookup leqb k q) as [y|] eqn:L; [|reflexivity].
  apply (lookup_In leqb leqb_ok), (in_map fst) in L. cbn [fst] in L. apply B in L. assert (X : existsb (leqb k) (map fst fs) = true) by (apply existsb_exists; exists k; split; [exact L|apply leqb_refl]). congruence.
Qed.
(* a field of what is taken *)
Lemma at_field accepts fs t r k y : read accepts (Struct fs) (VTab t) = Some r -> sub r [Key k] = Some y ->
  exists m s x, In (k, (m, s)) fs /\ lookup leqb k t = Some x /\ read accepts s x = Some y.
Proof.
  intros H N. rewrite read_struct in H. destruct (fields accepts t fs) as [q|] eqn:E; [|discriminate]. injection H as <-. cbn [sub] in N.
  destruct (lookup leqb k q) as [z|] eqn:L; [|discriminate]. injection N as <-. apply (lookup_In leqb leqb_ok) in L. destruct (fields_some accepts t fs q E) as (_ & _ & C). exact (C k z L).
Qed.

(* ---- the table of the program ---------------------------------------------------------- *)
Fixpoint nodupb (l : list text) : bool := match l with [] => true | x :: l' => negb (existsb (leqb x) l') && nodupb l' end.
Lemma nodupb_ok l : nodupb l = true -> NoDup l.
Proof.
  induction l as [|x l IH]; intros H; [constructor|]. cbn [nodupb] in H. apply andb_prop in H. destruct H as [A B]. constructor; [|apply IH; exact B].
  intros I1. assert (E : existsb (leqb x) l = true) by (apply existsb_exists; exists x; split; [exact I1|apply leqb_refl]). rewrite E in A. discriminate.
Qed.
Fixpoint wfb (s : schema) : bool :=
  match s with
  | Leaf _ => true
  | Opt s' | Vec s' | Map s' | TextOr s' => wfb s'
  | Struct fs => nodupb (map fst fs) && forallb (fun f => wfb (snd (snd f))) fs
  end.
Lemma wfb_ok s : wfb s = true -> wf s.
Proof.
  induction s as [k|s IH|s IH|s IH|s IH|fs IH] using schema_deep; cbn [wfb]; intros H; try (constructor; auto; fail).
  apply andb_prop in H. destruct H as [A B]. constructor; [apply nodupb_ok; exact A|]. intros k b s I1. apply (IH k b s I1). rewrite forallb_forall in B. exact (B _ I1).
Qed.
Lemma config_wf : wf config.
Proof. apply wfb_ok. vm_compute. reflexivity. Qed.

(* C168: at each known place of the file, what is taken is what is written; and nothing is
   taken that is not written *)
Theorem C168_taken : forall accepts v r, read accepts config v = Some r ->
  (forall p k x, part config v p (Leaf k) x <-> part config r p (Leaf k) x) /\ (forall p, sub v p = None -> sub r p = None).
Proof. intros accepts v r H. split; [intros p k x; exact (taken accepts config config_wf v r H p k x)|intros p; exact (invented accepts config v r p H)]. Qed.
(* false of the code: a key that means nothing, anywhere, is neither refused nor noticed *)
Theorem C168_unknown_refuted : forall accepts v v', adds config v v' -> read accepts config v' = read accepts config v.
Proof. intros accepts v v' A. exact (unknown accepts config config_wf v v' A). Qed.
(* so the address of the proxy in the file that comes with the program is not taken *)
Theorem C168_sample_refuted : forall accepts r, read accepts config sample_client = Some r ->
  sub sample_client [Key (txt "proxy"); Key (txt "bind_addr")] = Some (VOne (txt "0.0.0.0:8090")) /\
  sub r [Key (txt "proxy"); Key (txt "bind")] = None /\ sub r [Key (txt "proxy"); Key (txt "bind_addr")] = None.
Proof.
  intros accepts r H. split; [reflexivity|]. split; [apply (invented accepts config sample_client r _ H); reflexivity|].
  destruct (sub r [Key (txt "proxy")]) as [y|] eqn:Y.
  - assert (G : sub r [Key (txt "proxy"); Key (txt "bind_addr")] = sub y [Key (txt "bind_addr")]).
    { cbn [sub] in Y |- *. destruct r; try discriminate. destruct (lookup leqb (txt "proxy") t); [|discriminate]. injection Y as <-. reflexivity. }
    rewrite G. destruct (at_field accepts _ _ _ _ _ H Y) as (m & s & x & I1 & L & R). vm_compute in L. injection L as <-. change (In (txt "proxy", (m, s)) (match config with Struct fs => fs | _ => [] end)) in I1.
    assert (SE : s = Opt proxy).
    { pose proof config_wf as W. unfold config in W. inversion W as [| | | | |? ND _]; subst. pose proof (nodup_lookup _ _ _ ND I1) as X. cbn [lookup] in X. vm_compute in X. injection X as _ <-. reflexivity. }
    subst s. cbn [FmModel.read] in R.
    assert (WP : wf proxy) by (apply wfb_ok; vm_compute; reflexivity). unfold proxy in R, WP. refine (no_field accepts _ _ _ _ R WP _). vm_compute. reflexivity.
  - cbn [sub] in Y |- *. destruct r; try reflexivity. destruct (lookup leqb (txt "proxy") t); [discriminate|reflexivity].
Qed.

(* C169: a file is accepted exactly if each known place holds a value of the right form *)
Theorem C169_exact : forall accepts v, (exists r, read accepts config v = Some r) <-> (forall p s x, part config v p s x -> fits accepts s x).
Proof. intros accepts v. apply exact_read. Qed.
(* with both addresses a server needs nothing else *)
Theorem C169_server_partial : forall accepts t a b, lookup leqb (txt "bind_addr") t = Some a -> lookup leqb (txt "bind_ssl") t = Some b ->
  accepts (txt "WrapVecAddr") a = true -> accepts (txt "WrapVecAddr") b = true ->
  (forall k x, lookup leqb k t = Some x -> k = txt "bind_addr" \/ k = txt "bind_ssl") -> exists r, read accepts server (VTab t) = Some r.
Proof.
  intros accepts t a b LA LB AA AB N. unfold server, server_with. rewrite read_struct. match goal with |- context [fields _ _ ?l] => destruct (fields_exists accepts t l) as (r & ->) end; [| |cbn [option_map]; eauto].
  - intros k s I1. assert (X : k = txt "bind_addr" \/ k = txt "bind_ssl").
    { cbn [app] in I1. unfold common_with in I1. repeat (destruct I1 as [I1|I1]; [first [discriminate I1|injection I1 as <- _; auto]|]). destruct I1. }
    destruct X as [-> | ->]; congruence.
  - intros k m s x I1 L. assert (S1 : s = Leaf (txt "WrapVecAddr")).
    { assert (W : wf server) by (apply wfb_ok; vm_compute; reflexivity). unfold server, server_with in W. inversion W as [| | | | |? ND _]; subst.
      pose proof (nodup_lookup _ _ _ ND I1) as X. destruct (N k x L) as [-> | ->]; vm_compute in X; injection X as _ <-; reflexivity. }
    subst s. cbn [FmModel.read]. destruct (N k x L) as [-> | ->]; [rewrite LA in L|rewrite LB in L]; injection L as <-; [rewrite AA|rewrite AB]; eauto.
Qed.
(* false of the code: without both, the whole file is refused *)
Theorem C169_bind_ssl_refuted : forall accepts v sec i t k, In sec [txt "http"; txt "stream"] -> In k [txt "bind_addr"; txt "bind_ssl"] ->
  sub v [Key sec; Key (txt "server"); At i] = Some (VTab t) -> lookup leqb k t = None -> read accepts config v = None.
Proof.
  intros accepts v sec i t k I1 I2 H L. destruct (read accepts config v) as [r|] eqn:R; [exfalso|reflexivity].
  pose proof (proj1 (C169_exact accepts v) (ex_intro _ r R)) as EX. cbn [sub] in H. destruct v as [| | |tv]; try discriminate. destruct (lookup leqb sec tv) as [sv|] eqn:LS; [|discriminate].
  destruct sv as [| | |ts]; try discriminate. destruct (lookup leqb (txt "server") ts) as [lv|] eqn:LV; [|discriminate]. destruct lv as [| |l|]; try discriminate. destruct (nth_error l i) as [x|] eqn:NT; [|discriminate]. injection H as ->.
  assert (P : exists e, part config (VTab tv) [Key sec; Key (txt "server"); At i] (server_with e) (VTab t)).
  { assert (V : forall e, part (Vec (server_with e)) (VList l) [At i] (server_with e) (VTab t)) by (intros e; econstructor; [exact NT|constructor]).
    destruct I1 as [<-|[<-|[]]]; eexists.
    - eapply part_field with (must := false) (s := Opt http); [right; left; reflexivity|exact LS|]. apply part_opt; [discriminate|]. eapply part_field with (must := false) (s := Vec server); [left; reflexivity|exact LV|apply V].
    - eapply part_field with (must := false) (s := Opt stream); [right; right; left; reflexivity|exact LS|]. apply part_opt; [discriminate|]. eapply part_field with (must := false) (s := Vec (server_with "ConfigLog")); [left; reflexivity|exact LV|apply V]. }
  destruct P as (e & P).
  destruct (EX _ _ _ P) as (u & EU & RQ). injection EU as <-. destruct I2 as [<-|[<-|[]]]; refine (RQ _ _ _ L); [left; reflexivity|right; left; reflexivity].
Qed.
(* so the file that comes with the program is *)
Theorem C169_sample_refuted : forall accepts, read accepts config sample_reverse = None.
Proof. intros accepts. eapply (C169_bind_ssl_refuted accepts sample_reverse (txt "http") 0 _ (txt "bind_ssl")); [left; reflexivity|right; left; reflexivity|reflexivity|reflexivity]. Qed.

(* ---- the keys themselves ------------------------------------------------------- *)
(* what is left of a type without Option, Vec and the choice of a text *)
Fixpoint strip (s : schema) : schema := match s with Opt s' | Vec s' | TextOr s' => strip s' | _ => s end.
Fixpoint names_walk (s : schema) (ks : list text) : option schema :=
  match ks with
  | [] => Some s
  | k :: ks' => match strip s with Struct fs => match lookup leqb k fs with Some (_, s') => names_walk s' ks' | None => None end | _ => None end
  end.
Lemma strip_walk s s2 ks fs : strip s = strip s2 -> (exists x, names_walk s ks = Some x /\ strip x = Struct fs) -> exists x, names_walk s2 ks = Some x /\ strip x = Struct fs.
Proof. destruct ks as [|k ks]; cbn [names_walk]; intros E (x & W & F); [injection W as <-; exists s2; split; [reflexivity|congruence]|rewrite <- E; eauto]. Qed.
Section Reach.
  Context (accepts : leaf -> val -> bool) (texts : forall v, accepts (txt "str") v = true -> exists s, v = VOne s).
  Notation read := (read accepts).
  Lemma reach fs t : forall p s v r, wf s -> read s v = Some r -> sub v p = Some (VTab t) -> (exists x, names_walk s (way p) = Some x /\ strip x = Struct fs) ->
    exists q, wf (Struct fs) /\ sub r p = Some (VTab q) /\ fields accepts t fs = Some q.
  Proof.
    induction p as [|[k|i] p IH]; intros s; induction s as [k0|s IHs|s IHs|s IHs|s IHs|fs0 _] using schema_deep; intros v r Wf H S0 (x & W & F).
    all: try (cbn [way flat_map app names_walk] in W; injection W as <-; cbn [strip] in F; discriminate).
    all: try (cbn [way flat_map app names_walk strip] in W; discriminate).
    - injection S0 as ->. cbn [FmModel.read] in H. inversion Wf; subst. injection W as <-. apply (IHs (VTab t) r); auto. exists s. split; [reflexivity|exact F].
    - injection S0 as ->. discriminate.
    - injection S0 as ->. cbn [FmModel.read] in H. inversion Wf; subst. injection W as <-. apply (IHs (VTab t) r); auto. exists s. split; [reflexivity|exact F].
    - injection S0 as ->. injection W as <-. cbn [strip] in F. injection F as <-. rewrite read_struct in H. destruct (fields accepts t fs0) as [q|]; [|discriminate].
      injection H as <-. exists q. split; [exact Wf|]. split; reflexivity.
    - destruct v as [| | |tt]; try discriminate. cbn [FmModel.read] in H. inversion Wf; subst. apply (IHs (VTab tt) r); auto. exists x. split; [exact W|exact F].
    - destruct v as [| | |tt]; try discriminate. 
    - destruct v as [| | |tt]; try discriminate. cbn [FmModel.read] in H. inversion Wf; subst. apply (IHs (VTab tt) r); auto. exists x. split; [exact W|exact F].
    - destruct v as [| | |tt]; try discriminate. cbn [sub] in S0. destruct (lookup leqb k tt) as [y|] eqn:L; [|discriminate].
      cbn [way flat_map app names_walk strip] in W. destruct (lookup leqb k fs0) as [[m s1]|] eqn:Lf; [|discriminate].
      rewrite read_struct in H. destruct (fields accepts tt fs0) as [q|] eqn:E; [|discriminate]. injection H as <-.
      inversion Wf as [| | | | |? ND WF]; subst. apply (lookup_In leqb leqb_ok) in Lf. destruct (fields_some accepts tt fs0 q E) as (_ & B & _).
      destruct (B k m s1 y Lf L) as (z & Z & I1). destruct (fields_names accepts tt fs0 q E ND) as (NQ & _). cbn [sub]. rewrite (nodup_lookup q k z NQ I1).
      eapply IH; [exact (WF _ _ _ Lf)|exact Z|exact S0|exists x; split; [exact W|exact F]].
    - change (way (At i :: p)) with (way p) in W. destruct (way p); cbn [names_walk strip] in W; [injection W as <-|]; discriminate.
    - destruct v as [| |l|]; try discriminate. cbn [FmModel.read] in H. inversion Wf; subst. eapply (IHs (VList l) r); eauto. apply (strip_walk (Opt s)); [reflexivity|]. eexists. split; [exact W|exact F].
    - destruct v as [| |l|]; try discriminate. cbn [sub] in S0. destruct (nth_error l i) as [y|] eqn:L; [|discriminate]. cbn [FmModel.read] in H.
      destruct (all (map (read s) l)) as [q|] eqn:E; [|discriminate]. injection H as <-. apply all_some in E. destruct (nth_pair _ _ _ E i) as (A & _).
      destruct (A y L) as (z & Z & N). cbn [sub]. rewrite N. inversion Wf; subst. eapply IH; eauto. apply (strip_walk (Vec s)); [reflexivity|]. eexists. split; [exact W|exact F].
    - destruct v as [| |l|]; try discriminate.
    - destruct v as [| |l|]; try discriminate. cbn [FmModel.read] in H. destruct (accepts (txt "str") (VList l)) eqn:A; [|discriminate]. destruct (texts _ A) as (? & ?). discriminate.
    - destruct v as [| |l|]; try discriminate.
  Qed.
End Reach.
(* C168, which keys: in each part of the file exactly the keys listed for it are taken. *)
Theorem C168_keys : forall accepts v r p t ks k, (forall v, accepts (txt "str") v = true -> exists s, v = VOne s) ->
  read accepts config v = Some r -> sub v p = Some (VTab t) -> In (way p, ks) (map (fun x => (map txt (fst x), map txt (snd x))) file_keys) ->
  (sub r (p ++ [Key k]) <> None <-> sub v (p ++ [Key k]) <> None /\ In k ks).
Proof.
  intros accepts v r p t ks k TX H S0 I1.
  assert (W : exists fs x, (names_walk config (way p) = Some x /\ strip x = Struct fs) /\ (forall k, In k ks <-> In k (map fst fs))).
  { assert (G : Forall (fun y => exists fs x, (names_walk config (fst y) = Some x /\ strip x = Struct fs) /\ (forall k, In k (snd y) <-> In k (map fst fs)))
                 (map (fun x => (map txt (fst x), map txt (snd x))) file_keys)).
    { apply Forall_forall. intros y Y.
      assert (C : forallb (fun y => match names_walk config (fst y) with Some x => match strip x with Struct fs =>
                 forallb (fun k => existsb (leqb k) (map fst fs)) (snd y) && forallb (fun k => existsb (leqb k) (snd y)) (map fst fs) | _ => false end | None => false end)
               (map (fun x => (map txt (fst x), map txt (snd x))) file_keys) = true) by (vm_compute; reflexivity).
      rewrite forallb_forall in C. specialize (C y Y). cbv beta in C. match type of C with match ?z with _ => _ end = _ => destruct z as [x|] eqn:Ew; [|discriminate] end. destruct (strip x) as [| | | | |fs] eqn:F; try discriminate.
      exists fs, x. split; [split; [exact Ew|exact F]|]. apply andb_prop in C as [C1 C2]. rewrite forallb_forall in C1, C2.
      assert (M : forall k l, existsb (leqb k) l = true -> In k l) by (intros k0 l X; apply existsb_exists in X as (z & Z & E); apply leqb_ok in E; subst; exact Z).
      intros k0. split; intros X; apply M; auto. }
    rewrite Forall_forall in G. exact (G _ I1). }
  destruct W as (fs & x & W & K). destruct (reach accepts TX fs t p config v r config_wf H S0 (ex_intro _ x W)) as (q & Wf & Q & E).
  assert (SA : forall p v y k, sub v p = Some y -> sub v (p ++ [Key k]) = sub y [Key k]).
  { clear. induction p as [|[k0|i] p IH]; intros v y k H; cbn [app sub] in *; [injection H as ->; reflexivity| |].
    - destruct v; try discriminate. destruct (lookup leqb k0 t); [eauto|discriminate].
    - destruct v; try discriminate. destruct (nth_error l i); [eauto|discriminate]. }
  rewrite (SA p v _ k S0), (SA p r _ k Q), K. cbn [sub]. inversion Wf as [| | | | |? ND _]; subst.
  destruct (fields_some accepts t fs q E) as (_ & A & B). destruct (fields_names accepts t fs q E ND) as (NQ & _). split.
  - intros N. destruct (lookup leqb k q) as [y|] eqn:L; [|contradiction]. apply (lookup_In leqb leqb_ok) in L. destruct (B k y L) as (m & s & z & I2 & L2 & _).
    rewrite L2. split; [discriminate|]. apply (in_map fst _ _ I2).
  - intros [N I2]. destruct (lookup leqb k t) as [y|] eqn:L; [|contradiction]. apply in_map_iff in I2 as ((k1 & m & s) & <- & I2). destruct (A _ _ _ _ I2 L) as (z & _ & I3).
    cbn [fst]. rewrite (nodup_lookup q k1 z NQ I3). discriminate.
Qed.

Fixpoint forallb2 (f : text -> text -> bool) (a b : list text) : bool :=
  match a, b with [], [] => true | x :: a', y :: b' => f x y && forallb2 f a' b' | _, _ => false end.
Lemma forallb2_ok a : forall b, forallb2 leqb a b = true <-> a = b.
Proof.
  induction a as [|x a IH]; intros [|y b]; cbn [forallb2]; try (split; [discriminate|congruence]); [tauto|]. split.
  - intros H. apply andb_prop in H as [H1 H2]. apply leqb_ok in H1. apply IH in H2. congruence.
  - intros [= -> ->]. rewrite leqb_refl. cbn. now apply IH.
Qed.
Lemma leave_out_other k k' (t : list (text * val)) : leqb k k' = false -> lookup leqb k' (leave_out k t) = lookup leqb k' t.
Proof.
  intros N. induction t as [|[k0 x] t IH]; [reflexivity|]. unfold leave_out in *. cbn [filter fst]. destruct (leqb k k0) eqn:E; cbn [negb lookup].
  - apply leqb_ok in E. subst k0. rewrite IH. destruct (leqb k' k) eqn:E2; [|reflexivity]. apply leqb_ok in E2. subst. rewrite leqb_refl in N. discriminate.
  - rewrite IH. reflexivity.
Qed.
Lemma leave_out_self k (t : list (text * val)) : lookup leqb k (leave_out k t) = None.
Proof.
  induction t as [|[k0 x] t IH]; [reflexivity|]. unfold leave_out in *. cbn [filter fst]. destruct (leqb k k0) eqn:E; cbn [negb lookup]; [exact IH|]. rewrite E. exact IH.
Qed.
Lemma lookup_change f k k' (t : list (text * val)) : lookup leqb k' (change f k t) = if leqb k' k then option_map f (lookup leqb k' t) else lookup leqb k' t.
Proof.
  induction t as [|[k0 x] t IH]; cbn [change lookup]; [destruct (leqb k' k); reflexivity|]. destruct (leqb k k0) eqn:E; cbn [lookup].
  - apply leqb_ok in E. subst k0. destruct (leqb k' k) eqn:E2; reflexivity.
  - rewrite IH. destruct (leqb k' k0) eqn:E2; [|reflexivity]. apply leqb_ok in E2. subst k0. destruct (leqb k' k) eqn:E3; [|reflexivity]. apply leqb_ok in E3. subst. rewrite leqb_refl in E. discriminate.
Qed.
Lemma all_change (g : val -> option val) (f : val -> val) l : forall i r x, all (map g l) = Some r -> nth_error l i = Some x -> (exists y, g (f x) = Some y) ->
  exists r', all (map g (change_nth f i l)) = Some r'.
Proof.
  induction l as [|a l IH]; intros [|i] r x; cbn [nth_error]; try discriminate; cbn [map all change_nth]; destruct (g a) as [b|] eqn:G; try discriminate;
    destruct (all (map g l)) as [q|] eqn:E; try discriminate; intros _ N (y & Y).
  - injection N as ->. rewrite Y. cbn [map all]. eauto.
  - destruct (IH i q x eq_refl N (ex_intro _ y Y)) as (r' & R). cbn [map all]. rewrite R. eauto.
Qed.
Section Without.
  Context (accepts : leaf -> val -> bool) (texts : forall v, accepts (txt "str") v = true -> exists s, v = VOne s).
  Notation read := (read accepts).
  Lemma left_out fs t k : (forall s, ~ In (k, (true, s)) fs) -> forall p s v r, wf s -> read s v = Some r -> sub v p = Some (VTab t) ->
    (exists x, names_walk s (way p) = Some x /\ strip x = Struct fs) -> exists r', read s (without k v p) = Some r'.
  Proof.
    intros NR. induction p as [|[k1|i] p IH]; intros s; induction s as [k0|s IHs|s IHs|s IHs|s IHs|fs0 _] using schema_deep; intros v r Wf H S0 (x & W & F).
    all: try (cbn [way flat_map app names_walk] in W; injection W as <-; cbn [strip] in F; discriminate).
    all: try (cbn [way flat_map app names_walk strip] in W; discriminate).
    - injection S0 as ->. cbn [FmModel.read] in H. inversion Wf; subst. injection W as <-. apply (IHs (VTab t) r); auto. exists s. split; [reflexivity|exact F].
    - injection S0 as ->. discriminate.
    - injection S0 as ->. cbn [FmModel.read] in H. inversion Wf; subst. injection W as <-. apply (IHs (VTab t) r); auto. exists s. split; [reflexivity|exact F].
    - injection S0 as ->. injection W as <-. cbn [strip] in F. injection F as ->. rewrite read_struct in H. destruct (fields accepts t fs) as [q|] eqn:E; [|discriminate].
      cbn [without]. rewrite read_struct. destruct (fields_some accepts t fs q E) as (A & B & _).
      destruct (fields_exists accepts (leave_out k t) fs) as (r' & R); [| |rewrite R; cbn [option_map]; eauto].
      + intros k2 s2 I1. destruct (leqb k k2) eqn:E2; [apply leqb_ok in E2; subst; destruct (NR s2 I1)|]. rewrite leave_out_other by exact E2. exact (A k2 s2 I1).
      + intros k2 m s2 y I1 L. destruct (leqb k k2) eqn:E2; [apply leqb_ok in E2; subst; rewrite leave_out_self in L; discriminate|]. rewrite leave_out_other in L by exact E2.
        destruct (B k2 m s2 y I1 L) as (z & Z & _). eauto.
    - destruct v as [| | |tt]; try discriminate. cbn [FmModel.read] in H. inversion Wf; subst. apply (IHs (VTab tt) r); auto. exists x. split; [exact W|exact F].
    - destruct v as [| | |tt]; try discriminate.
    - destruct v as [| | |tt]; try discriminate. cbn [FmModel.read] in H. inversion Wf; subst. apply (IHs (VTab tt) r); auto. exists x. split; [exact W|exact F].
    - destruct v as [| | |tt]; try discriminate. cbn [sub] in S0. destruct (lookup leqb k1 tt) as [y|] eqn:L; [|discriminate].
      cbn [way flat_map app names_walk strip] in W. destruct (lookup leqb k1 fs0) as [[m s1]|] eqn:Lf; [|discriminate].
      rewrite read_struct in H. destruct (fields accepts tt fs0) as [q|] eqn:E; [|discriminate].
      inversion Wf as [| | | | |? ND WF]; subst. pose proof Lf as Lf2. apply (lookup_In leqb leqb_ok) in Lf. destruct (fields_some accepts tt fs0 q E) as (A & B & _).
      destruct (B k1 m s1 y Lf L) as (z & Z & I1).
      destruct (IH s1 y z (WF _ _ _ Lf) Z S0 (ex_intro _ x (conj W F))) as (r1 & R1).
      cbn [without]. rewrite read_struct. destruct (fields_exists accepts (change (fun x => without k x p) k1 tt) fs0) as (r' & R); [| |rewrite R; cbn [option_map]; eauto].
      + intros k2 s2 I2. rewrite lookup_change. destruct (leqb k2 k1); [|exact (A k2 s2 I2)]. pose proof (A k2 s2 I2) as X. destruct (lookup leqb k2 tt); [discriminate|contradiction].
      + intros k2 m2 s2 y2 I2. rewrite lookup_change. destruct (leqb k2 k1) eqn:E2.
        * apply leqb_ok in E2. subst k2. rewrite L. intros [= <-]. apply (nodup_lookup fs0 k1 _ ND) in I2. rewrite Lf2 in I2. injection I2 as <- <-. eauto.
        * intros L2. destruct (B k2 m2 s2 y2 I2 L2) as (z2 & Z2 & _). eauto.
    - change (way (At i :: p)) with (way p) in W. destruct (way p); cbn [names_walk strip] in W; [injection W as <-|]; discriminate.
    - destruct v as [| |l|]; try discriminate. cbn [FmModel.read] in H. inversion Wf; subst. apply (IHs (VList l) r); auto. apply (strip_walk (Opt s)); [reflexivity|]. eexists. split; [exact W|exact F].
    - destruct v as [| |l|]; try discriminate. cbn [sub] in S0. destruct (nth_error l i) as [y|] eqn:L; [|discriminate]. cbn [FmModel.read] in H.
      destruct (all (map (read s) l)) as [q|] eqn:E; [|discriminate]. pose proof E as E0. apply all_some in E. destruct (nth_pair _ _ _ E i) as (A & _).
      destruct (A y L) as (z & Z & N). inversion Wf; subst. cbn [without FmModel.read].
      destruct (all_change (read s) (fun x => without k x p) l i q y E0 L) as (r' & R); [|rewrite R; cbn [option_map]; eauto].
      apply (IH s y z); auto. apply (strip_walk (Vec s)); [reflexivity|]. eexists. split; [exact W|exact F].
    - destruct v as [| |l|]; try discriminate.
    - destruct v as [| |l|]; try discriminate. cbn [FmModel.read] in H. destruct (accepts (txt "str") (VList l)) eqn:A; [|discriminate]. destruct (texts _ A) as (? & ?). discriminate.
    - destruct v as [| |l|]; try discriminate.
  Qed.
End Without.
(* C169, which keys must be there: without one of those listed the file is refused; any other
   key of a part can be left out of an accepted file. *)
Definition needed (p : list step) (k : text) : Prop := In (way p, k) (map (fun x => (map txt (fst x), txt (snd x))) needed_keys).
Lemma needed_table p ks : In (way p, ks) (map (fun x => (map txt (fst x), map txt (snd x))) file_keys) ->
  exists fs x, (names_walk config (way p) = Some x /\ strip x = Struct fs) /\ forall k, needed p k <-> exists s, In (k, (true, s)) fs.
Proof.
  intros I1.
  assert (C : forallb (fun y => match names_walk config (fst y) with Some x => match strip x with Struct fs =>
             forallb (fun z => implb (forallb2 leqb (fst z) (fst y)) (existsb (fun f => leqb (fst f) (snd z) && fst (snd f)) fs)) (map (fun x => (map txt (fst x), txt (snd x))) needed_keys)
             && forallb (fun f => implb (fst (snd f)) (existsb (fun z => forallb2 leqb (fst z) (fst y) && leqb (snd z) (fst f)) (map (fun x => (map txt (fst x), txt (snd x))) needed_keys))) fs
             | _ => false end | None => false end)
           (map (fun x => (map txt (fst x), map txt (snd x))) file_keys) = true) by (vm_compute; reflexivity).
  rewrite forallb_forall in C. specialize (C _ I1). cbv beta in C. cbn [fst] in C.
  match type of C with match ?z with _ => _ end = _ => destruct z as [x|] eqn:Ew; [|discriminate] end. destruct (strip x) as [| | | | |fs] eqn:F; try discriminate.
  exists fs, x. split; [split; [first [exact Ew|reflexivity]|exact F]|]. apply andb_prop in C as [C1 C2]. rewrite forallb_forall in C1, C2. intros k. unfold needed. split.
  - intros N. specialize (C1 _ N). cbn [fst snd] in C1. rewrite (proj2 (forallb2_ok _ _)) in C1 by reflexivity. cbn [implb] in C1.
    apply existsb_exists in C1 as ((k1 & m & s) & I2 & E). cbn [fst snd] in E. apply andb_prop in E as [E1 E2]. apply leqb_ok in E1. subst. eauto.
  - intros (s & I2). specialize (C2 _ I2). cbn [fst snd implb] in C2. apply existsb_exists in C2 as ((w & k1) & I3 & E). cbn [fst snd] in E. apply andb_prop in E as [E1 E2].
    apply leqb_ok in E2. apply forallb2_ok in E1. subst. exact I3.
Qed.
Theorem C169_needed : forall accepts v p t k, (forall v, accepts (txt "str") v = true -> exists s, v = VOne s) ->
  sub v p = Some (VTab t) -> needed p k -> lookup leqb k t = None -> read accepts config v = None.
Proof.
  intros accepts v p t k TX S0 N L. destruct (read accepts config v) as [r|] eqn:H; [exfalso|reflexivity].
  assert (I1 : exists ks, In (way p, ks) (map (fun x => (map txt (fst x), map txt (snd x))) file_keys)).
  { assert (C : forallb (fun z => existsb (fun y => forallb2 leqb (fst z) (fst y)) (map (fun x => (map txt (fst x), map txt (snd x))) file_keys))
               (map (fun x => (map txt (fst x), txt (snd x))) needed_keys) = true) by (vm_compute; reflexivity).
    rewrite forallb_forall in C. specialize (C _ N). cbv beta in C. cbn [fst] in C. apply existsb_exists in C as ((w & ks) & I1 & E). cbn [fst] in E. apply forallb2_ok in E. subst w. eauto. }
  destruct I1 as (ks & I1). destruct (needed_table p ks I1) as (fs & x & W & K). apply K in N as (s & N).
  destruct (reach accepts TX fs t p config v r config_wf H S0 (ex_intro _ x W)) as (q & _ & _ & E). destruct (fields_some accepts t fs q E) as (A & _). exact (A k s N L).
Qed.
Theorem C169_left_out : forall accepts v r p t ks k, (forall v, accepts (txt "str") v = true -> exists s, v = VOne s) ->
  read accepts config v = Some r -> sub v p = Some (VTab t) -> In (way p, ks) (map (fun x => (map txt (fst x), map txt (snd x))) file_keys) ->
  ~ needed p k -> exists r', read accepts config (without k v p) = Some r'.
Proof.
  intros accepts v r p t ks k TX H S0 I1 N. destruct (needed_table p ks I1) as (fs & x & W & K).
  apply (left_out accepts TX fs t k) with (r := r); auto; [|exact config_wf|exists x; exact W]. intros s I2. apply N, K. eauto.
Qed.

(* C169, the kinds: lists, tables and sections are accepted only as what they are. *)
Definition kindb (w : list string) (k : string) (s : schema) : bool :=
  if holds_list w k then match s with Vec _ => true | _ => false end
  else if holds_table k then match s with Map _ | Struct _ => true | _ => false end
  else if may_hold_table k then match s with Opt (Struct _) => true | _ => false end else true.
Lemma kindb_ok accepts w k s x y : kindb w k s = true -> read accepts s x = Some y -> right_kind w k x.
Proof.
  unfold kindb, right_kind. intros K H. destruct (holds_list w k); [|destruct (holds_table k); [|destruct (may_hold_table k); [|exact I]]].
  - destruct s; try discriminate. destruct x; try discriminate. eauto.
  - destruct s; try discriminate; destruct x; try discriminate; eauto.
  - destruct s as [|s| | | |]; try discriminate. destruct s; try discriminate. destruct x; try discriminate; eauto.
Qed.
Theorem C169_kinds : forall accepts v r p t w ks k x, (forall v, accepts (txt "str") v = true -> exists s, v = VOne s) ->
  read accepts config v = Some r -> sub v p = Some (VTab t) -> way p = map txt w -> In (w, ks) file_keys -> In k ks ->
  lookup leqb (txt k) t = Some x -> right_kind w k x.
Proof.
  intros accepts v r p t w ks k x TX H S0 E I1 I2 L.
  assert (C : forallb (fun y => match names_walk config (map txt (fst y)) with Some x => match strip x with Struct fs =>
             forallb (fun k => existsb (fun f => leqb (fst f) (txt k) && kindb (fst y) k (snd (snd f))) fs) (snd y) | _ => false end | None => false end) file_keys = true)
    by (vm_compute; reflexivity).
  rewrite forallb_forall in C. specialize (C _ I1). cbv beta in C. cbn [fst snd] in C.
  match type of C with match ?z with _ => _ end = _ => destruct z as [sx|] eqn:Ew; [|discriminate] end. destruct (strip sx) as [| | | | |fs] eqn:F; try discriminate.
  rewrite forallb_forall in C. specialize (C _ I2). apply existsb_exists in C as ((k1 & m & s) & I3 & C). cbn [fst snd] in C. apply andb_prop in C as [C1 C2]. apply leqb_ok in C1. subst k1.
  destruct (reach accepts TX fs t p config v r config_wf H S0) as (q & _ & _ & Q); [exists sx; rewrite E; split; [exact Ew|exact F]|].
  destruct (fields_some accepts t fs q Q) as (_ & A & _). destruct (A _ _ _ _ I3 L) as (y & Y & _). exact (kindb_ok accepts w k s x y C2 Y).
Qed.

(* C169: a value may be left empty exactly where the field is optional *)
Definition nullb (w : list string) (k : string) (s : schema) : bool :=
  Bool.eqb (may_be_null w k) (match s with Opt _ => true | _ => false end).
Theorem C169_empty : forall accepts v r p t w ks k, (forall l v, accepts l v = true -> v <> VNull) -> (forall v, accepts (txt "str") v = true -> exists s, v = VOne s) ->
  read accepts config v = Some r -> sub v p = Some (VTab t) -> way p = map txt w -> In (w, ks) file_keys -> In k ks ->
  lookup leqb (txt k) t = Some VNull -> may_be_null w k = true.
Proof.
  intros accepts v r p t w ks k AN TX H S0 E I1 I2 L.
  assert (C : forallb (fun y => match names_walk config (map txt (fst y)) with Some x => match strip x with Struct fs =>
             forallb (fun k => existsb (fun f => leqb (fst f) (txt k) && nullb (fst y) k (snd (snd f))) fs) (snd y) | _ => false end | None => false end) file_keys = true)
    by (vm_compute; reflexivity).
  rewrite forallb_forall in C. specialize (C _ I1). cbv beta in C. cbn [fst snd] in C.
  match type of C with match ?z with _ => _ end = _ => destruct z as [sx|] eqn:Ew; [|discriminate] end. destruct (strip sx) as [| | | | |fs] eqn:F; try discriminate.
  rewrite forallb_forall in C. specialize (C _ I2). apply existsb_exists in C as ((k1 & m & s) & I3 & C). cbn [fst snd] in C. apply andb_prop in C as [C1 C2]. apply leqb_ok in C1. subst k1.
  destruct (reach accepts TX fs t p config v r config_wf H S0) as (q & _ & _ & Q); [exists sx; rewrite E; split; [exact Ew|exact F]|].
  destruct (fields_some accepts t fs q Q) as (_ & A & _). destruct (A _ _ _ _ I3 L) as (y & Y & _).
  unfold nullb in C2. apply Bool.eqb_prop in C2. rewrite C2. destruct s as [l|s|s|s|s|ff]; try reflexivity; cbn in Y; try discriminate.
  - destruct (accepts l VNull) eqn:N; [|discriminate]. now destruct (AN _ _ N).
  - destruct (accepts _ VNull) eqn:N; [|discriminate]. now destruct (AN _ _ N).
Qed.
Example C169_empty_demo : let accepts := (fun (_ : leaf) v => match v with VOne _ => true | _ => false end) in
  (exists r, read accepts config (VTab [(txt "http", VTab [(txt "rate_limit", VNull)])]) = Some r) /\
  read accepts config (VTab [(txt "control", VNull)]) = None /\ may_be_null ["http"]%string "rate_limit" = true /\ may_be_null [] "control" = false.
Proof. vm_compute. repeat split; eauto. Qed.
Print Assumptions C169_empty.

(* a file with one server, one location and a key that means nothing *)
Definition small (extra : list (text * val)) : val :=
  VTab [(txt "http", VTab (extra ++ [(txt "server", VList [VTab [(txt "bind_addr", VOne (txt "0.0.0.0:82")); (txt "bind_ssl", VOne []);
    (txt "location", VList [VTab [(txt "rule", VOne (txt "/static")); (txt "static_response", VOne (txt "ok"))]])]])]))].
Example C168_demo :
  adds config (small []) (small [(txt "aa", VOne (txt "b"))]) /\ read (fun _ _ => true) config (small [(txt "aa", VOne (txt "b"))]) = Some (small []) /\
  part config (small []) [Key (txt "http"); Key (txt "server"); At 0; Key (txt "location"); At 0; Key (txt "rule")] (TextOr matcher) (VOne (txt "/static")) /\
  exists r, read (fun _ _ => true) config sample_client = Some r.
Proof.
  split; [|split; [vm_compute; reflexivity|split; [|vm_compute; eexists; reflexivity]]].
  - apply (adds_field _ [] (txt "http") false (Opt http)); [right; left; reflexivity|intros []|]. apply adds_opt. apply (adds_here _ []).
    intros H. assert (X : existsb (leqb (txt "aa")) (map fst (match http with Struct fs => fs | _ => [] end)) = true) by (apply existsb_exists; exists (txt "aa"); split; [exact H|reflexivity]). vm_compute in X. discriminate.
  - eapply part_field; [right; left; reflexivity|reflexivity|]. apply part_opt; [discriminate|]. eapply part_field; [left; reflexivity|reflexivity|]. eapply part_vec; [reflexivity|].
    eapply part_field; [do 8 right; left; reflexivity|reflexivity|]. eapply part_vec; [reflexivity|]. eapply part_field; [left; reflexivity|reflexivity|]. apply part_here.
Qed.
(* the hypotheses of the theorems about keys: a location, its keys, and texts that are texts *)
Example C168_keys_demo :
  let acc := fun (k : leaf) v => match v with VOne _ => true | _ => false end in
  let p := [Key (txt "http"); Key (txt "server"); At 0; Key (txt "location"); At 0] in
  (forall v, acc (txt "str") v = true -> exists s, v = VOne s) /\ read acc config (small []) <> None /\ (exists t, sub (small []) p = Some (VTab t)) /\
  needed p (txt "rule") /\ (exists ks, In (way p, ks) (map (fun x => (map txt (fst x), map txt (snd x))) file_keys)) /\
  read acc config (without (txt "static_response") (small []) p) <> None /\ read acc config (without (txt "rule") (small []) p) = None.
Proof.
  split; [intros [] H; try discriminate; eauto|]. split; [vm_compute; discriminate|]. split; [eexists; reflexivity|].
  split; [unfold needed; vm_compute; tauto|]. split; [eexists; vm_compute; tauto|]. split; [vm_compute; discriminate|vm_compute; reflexivity].
Qed.
Example C169_demo : read (fun _ _ => true) server (VTab [(txt "bind_ssl", VOne []); (txt "bind_addr", VOne (txt ":82"))]) = Some (VTab [(txt "bind_addr", VOne (txt ":82")); (txt "bind_ssl", VOne [])]) /\
  read (fun _ _ => true) server (VTab [(txt "bind_addr", VOne (txt ":82"))]) = None.
Proof. vm_compute. split; reflexivity. Qed.

Print Assumptions C168_taken.
Print Assumptions C168_keys.
Print Assumptions C168_unknown_refuted.
Print Assumptions C168_sample_refuted.
Print Assumptions C169_exact.
Print Assumptions C169_needed.
Print Assumptions C169_kinds.
Print Assumptions C169_left_out.
Print Assumptions C169_server_partial.
Print Assumptions C169_bind_ssl_refuted.
Print Assumptions C169_sample_refuted.
