(* The parser of log patterns: it reads the documented grammar, and its bound is never reached. *)
From Coq Require Import String.
From Verif Require Import Base Text TextOps LogModel LogSpec.
Open Scope N_scope.

(* ---- numbers ---- *)
Lemma span_app p a b : forallb p a = true -> match b with [] => True | c :: _ => p c = false end -> span p (a ++ b) = (a, b).
Proof.
  induction a as [|c a IH]; cbn [forallb app]; intros A B.
  - destruct b as [|c b]; [reflexivity|]. cbn [span]. now rewrite B.
  - apply andb_true_iff in A. destruct A as (A1 & A2). cbn [span]. rewrite A1, (IH A2 B). reflexivity.
Qed.
Lemma digits_mono s : forall a n, digits a s = Some n -> a <= n.
Proof.
  induction s as [|c s IH]; cbn [digits]; intros a n H; [injection H as <-; lia|]. destruct (is_digit c); [|discriminate]. apply IH in H. lia.
Qed.
Lemma fold_digits s : forall a n, digits a s = Some n -> n < 2 ^ 64 -> fold_left (fun cur d => (cur * 10 + (d - 48)) mod 2 ^ 64) s a = n.
Proof.
  induction s as [|c s IH]; cbn [digits fold_left]; intros a n H L; [now injection H|]. destruct (is_digit c) eqn:D; [|discriminate]. assert (M := digits_mono _ _ _ H).
  replace ((a * 10 + (c - 48)) mod 2 ^ 64) with (a * 10 + (c - 48)).
  - apply IH; assumption.
  - rewrite N.mod_small by lia. lia.
Qed.
Definition no_digit (s : text) : Prop := match s with [] => True | c :: _ => is_digit c = false end.
Lemma integer_some a n rest : is_number a n -> no_digit rest -> integer (a ++ rest) = (Some n, rest).
Proof.
  intros (A & B & D & L) R. unfold integer. rewrite span_app by assumption. destruct a as [|c a]; [congruence|]. f_equal. f_equal. now apply fold_digits.
Qed.
Lemma integer_none rest : no_digit rest -> integer rest = (None, rest).
Proof. intro R. unfold integer. change rest with ([] ++ rest) at 1. rewrite span_app by (auto; reflexivity). reflexivity. Qed.
Lemma integer_opt a o rest : is_opt_number a o -> no_digit rest -> integer (a ++ rest) = (o, rest).
Proof. intros A R. destruct o as [n|]; cbn in A; [now apply integer_some|subst a; now apply integer_none]. Qed.
Lemma digit_range c : is_digit c = true -> 48 <= c <= 57.
Proof. unfold is_digit. intro H. apply andb_true_iff in H. destruct H as (A & B). apply N.leb_le in A. apply N.leb_le in B. lia. Qed.
Lemma number_head a n : is_number a n -> exists c a', a = c :: a' /\ is_digit c = true.
Proof. intros (A & B & _). destruct a as [|c a']; [congruence|]. exists c, a'. split; [reflexivity|]. cbn in B. now apply andb_true_iff in B. Qed.

Definition tail_of (b : text) (mx : option N) : text := match mx with None => [] | Some _ => 46 :: b end.
(* minimum, maximum and the closing brace *)
Lemma widths a b mn mx rest : is_opt_number a mn -> is_opt_number b mx ->
  (let (m, s) := integer (a ++ tail_of b mx ++ c_rb :: rest) in let (M, s) := match consume 46 s with Some s' => integer s' | None => (None, s) end in (m, M, s)) = (mn, mx, c_rb :: rest).
Proof.
  intros A B. rewrite (integer_opt a mn) by (try assumption; destruct mx; reflexivity). destruct mx as [M|]; cbn [tail_of app consume].
  - change (46 =? 46) with true. cbn match. rewrite (integer_opt b (Some M)) by (try assumption; reflexivity). reflexivity.
  - change (c_rb =? 46) with false. reflexivity.
Qed.
(* what follows the place of the fill character when there is none *)
Lemma no_align a b mn mx rest : is_opt_number a mn -> is_opt_number b mx ->
  match a ++ tail_of b mx ++ c_rb :: rest with c :: _ => (c =? 60) || (c =? 62) = false | [] => False end.
Proof.
  intros A B. destruct mn as [n|]; cbn [is_opt_number] in A.
  - destruct (number_head _ _ A) as (c & a' & -> & D). apply digit_range in D. cbn [app]. apply orb_false_iff. split; apply N.eqb_neq; lia.
  - subst a. destruct mx as [M|]; cbn; reflexivity.
Qed.
Definition numbers (f : N) (right : bool) (s : text) : params * text :=
  let (mn, s) := integer s in let (mx, s) := match consume 46 s with Some s' => integer s' | None => (None, s) end in (Params f right mn mx, s).
Lemma numbers_ok f right a b mn mx rest : is_opt_number a mn -> is_opt_number b mx -> numbers f right (a ++ tail_of b mx ++ c_rb :: rest) = (Params f right mn mx, c_rb :: rest).
Proof.
  intros A B. assert (W := widths a b mn mx rest A B). unfold numbers. destruct (integer (a ++ tail_of b mx ++ c_rb :: rest)) as (m, u). destruct (match consume 46 u with Some s' => integer s' | None => (None, u) end) as (M, v). injection W as -> -> ->. reflexivity.
Qed.
Definition aligned (c : N) : bool := (c =? 60) || (c =? 62).
Lemma par_plain v : match v with c :: d :: _ => aligned c = false /\ aligned d = false | _ => False end -> parameters (58 :: v) = numbers 32 false v.
Proof. destruct v as [|c [|d v]]; try contradiction. intros (A & B). unfold parameters, aligned in *. cbn [consume]. change (58 =? 58) with true. cbn match. rewrite B. apply orb_false_iff in A. destruct A as (A1 & A2). cbn match; cbn [consume]; rewrite A1; cbn match; rewrite A2. reflexivity. Qed.
Lemma par_align right v : match v with d :: _ => aligned d = false | [] => False end -> parameters (58 :: (if right : bool then 62 else 60) :: v) = numbers 32 right v.
Proof. destruct v as [|d v]; try contradiction. unfold parameters, aligned. intro A. cbn [consume]. change (58 =? 58) with true. cbn match. rewrite A. destruct right; reflexivity. Qed.
Lemma par_fill f right v : parameters (58 :: f :: (if right : bool then 62 else 60) :: v) = numbers f right v.
Proof. unfold parameters. cbn [consume]. change (58 =? 58) with true. cbn match. destruct right; reflexivity. Qed.
Lemma digit_aligned c : is_digit c = true -> aligned c = false.
Proof. intro D. apply digit_range in D. apply orb_false_iff. split; apply N.eqb_neq; lia. Qed.
Lemma parameters_ok par sp rest : spec_prints par sp -> parameters (sp ++ c_rb :: rest) = (par, c_rb :: rest).
Proof.
  intros [|mn mx a b P A B|right mn mx a b A B|f right mn mx a b A B].
  - reflexivity.
  - rewrite <- (numbers_ok 32 false a b mn mx rest A B). cbn [app]. rewrite <- app_assoc. apply par_plain. destruct mn as [n|]; cbn [is_opt_number] in A.
    + destruct A as (A1 & A2 & _). destruct a as [|c [|d a]]; [congruence| |]; cbn [forallb] in A2; apply andb_true_iff in A2; destruct A2 as (D1 & A2).
      * cbn [app]. destruct mx; cbn [app]; (split; [apply digit_aligned; exact D1|reflexivity]).
      * apply andb_true_iff in A2. cbn [app]. split; apply digit_aligned; tauto.
    + subst a. destruct mx as [M|]; [|tauto]. cbn [is_opt_number] in B. destruct (number_head _ _ B) as (d & b' & -> & D). cbn [app]. split; [reflexivity|apply digit_aligned; exact D].
  - rewrite <- (numbers_ok 32 right a b mn mx rest A B). cbn [app]. rewrite <- app_assoc. apply par_align. exact (no_align a b mn mx rest A B).
  - rewrite <- (numbers_ok f right a b mn mx rest A B). cbn [app]. rewrite <- app_assoc. apply par_fill.
Qed.
Lemma spec_head par sp : spec_prints par sp -> sp = [] \/ exists u, sp = 58 :: u.
Proof. intros []; eauto. Qed.

(* one step of the mutual recursion *)
Section Steps.
  Context (alpha alnum : N -> bool).
  Lemma next_S n s : next alpha alnum (S n) s =
      match s with
      | [] => None
      | c :: s1 =>
        if c =? c_lb then
          match consume c_lb s1 with
          | Some s2 => Some (PText [c_lb], s2)
          | None =>
            let (nm, s2) := name alpha alnum s1 in
            let '(p, s4) := match args alpha alnum n s2 with
                            | inr (l, s3) => let (par, s4) := parameters s3 in (PArg nm l par, s4)
                            | inl (e, s3) => (PErr e, s3)
                            end in
            match consume c_rb s4 with Some s5 => Some (p, s5) | None => Some (PErr (txt "expected '}'"), []) end
          end
        else if c =? c_rb then
          match consume c_rb s1 with Some s2 => Some (PText [c_rb], s2) | None => Some (PErr (txt "unmatched '}'"), s1) end
        else if c =? c_lp then
          match consume c_lp s1 with Some s2 => Some (PText [c_lp], s2) | None => Some (PErr (txt "unexpected '('"), s1) end
        else if c =? c_rp then
          match consume c_rp s1 with Some s2 => Some (PText [c_rp], s2) | None => Some (PErr (txt "unexpected ')'"), s1) end
        else if c =? c_bs then
          match s1 with
          | d :: s2 => if special d then Some (PText [d], s2) else Some (PErr (txt "unexpected '\'"), s1)
          | [] => Some (PErr (txt "unexpected '\'"), s1)
          end
        else let (t, s2) := span (fun d => negb (special d)) (c :: s1) in Some (PText t, s2)
      end.
  Proof. reflexivity. Qed.
  Lemma args_S n s : args alpha alnum (S n) s =
      match consume c_lp s with
      | None => inr ([], s)
      | Some s1 =>
        match arg alpha alnum n s1 with
        | inl e => inl e
        | inr (a, s2) => match args alpha alnum n s2 with inl e => inl e | inr (l, s3) => inr (a :: l, s3) end
        end
      end.
  Proof. reflexivity. Qed.
  Lemma arg_S n s : arg alpha alnum (S n) s =
      match consume c_rp s with
      | Some s1 => inr ([], s1)
      | None =>
        match next alpha alnum n s with
        | None => inl (txt "unclosed '('", s)
        | Some (p, s1) => match arg alpha alnum n s1 with inl e => inl e | inr (l, s2) => inr (p :: l, s2) end
        end
      end.
  Proof. reflexivity. Qed.
End Steps.

Section P.
  Context (alpha alnum : N -> bool) (SY : syntax_ok alpha alnum).
  Notation prints := (prints alpha alnum).
  Notation args_print := (args_print alpha alnum).
  Notation next := (next alpha alnum).
  Notation args := (args alpha alnum).
  Notation arg := (arg alpha alnum).

  Lemma args_head ar sa : args_print ar sa -> sa = [] \/ exists u, sa = c_lp :: u.
  Proof. intros []; eauto. Qed.
  (* after the name: a character of the syntax *)
  Lemma after_name ar sa par sp s : args_print ar sa -> spec_prints par sp -> exists c u, sa ++ sp ++ c_rb :: s = c :: u /\ In c [c_rb; c_lp; 58].
  Proof.
    intros A B. destruct (args_head _ _ A) as [->|(u & ->)]; [destruct (spec_head _ _ B) as [->|(u & ->)]|]; cbn [app]; eexists; eexists; (split; [reflexivity|cbn; auto]).
  Qed.
  Lemma syn c : In c [c_rb; c_lp; 58] -> alpha c = false /\ alnum c = false /\ (c =? 95) = false /\ (c =? c_lb) = false.
  Proof.
    intro H. split; [|split].
    - apply SY. cbn in *. intuition.
    - apply SY. cbn in *. intuition.
    - cbn in H. intuition; subst c; reflexivity.
  Qed.
  Lemma name_ok nm rest : is_ident alpha alnum nm -> match rest with c :: _ => In c [c_rb; c_lp; 58] | [] => False end -> name alpha alnum (nm ++ rest) = (nm, rest).
  Proof.
    intros I R. destruct rest as [|d rest]; [contradiction|]. destruct (syn d R) as (S1 & S2 & S3 & S4). destruct nm as [|c nm]; cbn [app name].
    - now rewrite S1, S3.
    - destruct I as (I1 & I2). rewrite I1. rewrite span_app by (try assumption; now rewrite S2, S3). reflexivity.
  Qed.
  Definition stop (rest : text) : Prop := match rest with [] => True | c :: _ => special c = true end.
  Lemma special_lb : special c_lb = true. Proof. reflexivity. Qed.
  Lemma bracket_special c : bracket c = true -> special c = true. Proof. unfold special. intros ->. reflexivity. Qed.
  Lemma run i l s : prints i l s -> forall rest, stop rest -> exists t s2 l2, span (fun d => negb (special d)) (s ++ rest) = (t, s2 ++ rest) /\ prints i l2 s2 /\ map TC t ++ l2 = l /\ (length s2 <= length s)%nat.
  Proof.
    intro P. remember s as s0 eqn:E. revert P E. revert i l s. induction s0 as [s0 IH] using (induction_ltof1 _ (@length N)). unfold ltof in IH. intros i l s P E rest R. subst s.
    inversion P as [i0|i0 c l0 s1 A P1|i0 c l0 s1 A B P1|i0 c l0 s1 A P1|i0 nm ar par sa sp l0 s1 A B D P1]; subst.
    - exists [], [], []. cbn [app]. split; [|auto]. destruct rest as [|c rest]; [reflexivity|]. cbn [span]. cbn in R. now rewrite R.
    - destruct (IH s1 ltac:(cbn; lia) i l0 s1 P1 eq_refl rest R) as (t & s2 & l2 & S & P2 & M & L). exists (c :: t), s2, l2. cbn [app span]. rewrite A. cbn [negb]. rewrite S. repeat split; auto; [cbn; now rewrite M|cbn; lia].
    - exists [], (c :: c :: s1), (TC c :: l0). cbn [app span]. rewrite (bracket_special c A). repeat split; auto.
    - exists [], (c_bs :: c :: s1), (TC c :: l0). repeat split; auto.
    - exists [], (c_lb :: nm ++ sa ++ sp ++ c_rb :: s1), (TA nm ar par :: l0). repeat split; auto.
  Qed.
  Lemma bracket_cases c : bracket c = true -> c = c_lb \/ c = c_rb \/ c = c_lp \/ c = c_rp.
  Proof. unfold bracket. intro H. apply orb_true_iff in H. destruct H as [H|H]; [apply orb_true_iff in H; destruct H as [H|H]; [apply orb_true_iff in H; destruct H as [H|H]|]|]; apply N.eqb_eq in H; auto. Qed.
  Lemma special_false c : special c = false -> (c =? c_lb) = false /\ (c =? c_rb) = false /\ (c =? c_lp) = false /\ (c =? c_rp) = false /\ (c =? c_bs) = false.
  Proof. unfold special, bracket. intro H. apply orb_false_iff in H. destruct H as (H & H5). apply orb_false_iff in H. destruct H as (H & H4). apply orb_false_iff in H. destruct H as (H & H3). apply orb_false_iff in H. tauto. Qed.

  Definition next_ok (s : text) : Prop := forall i t l rest n, prints i (t :: l) s -> stop rest -> (2 * length (s ++ rest) + 1 <= n)%nat ->
    exists p s' l', next n (s ++ rest) = Some (p, s' ++ rest) /\ prints i l' s' /\ toks p ++ l' = t :: l /\ (length s' < length s)%nat.
  Definition arg_ok (s : text) : Prop := forall a rest n, prints true a s -> (2 * length (s ++ c_rp :: rest) + 2 <= n)%nat ->
    exists l, arg n (s ++ c_rp :: rest) = inr (l, rest) /\ flat_map toks l = a.
  Definition args_ok (s : text) : Prop := forall ar rest n, args_print ar s -> match rest with c :: _ => c <> c_lp | [] => True end -> (2 * length (s ++ rest) + 1 <= n)%nat ->
    exists l, args n (s ++ rest) = inr (l, rest) /\ map (flat_map toks) l = ar.
  Lemma next_step s : (forall s', (length s' < length s)%nat -> args_ok s') -> next_ok s.
  Proof.
    intros IA i t l rest n P R F. destruct n as [|n]; [lia|].
    inversion P as [i0|i0 c l0 s1 A P1|i0 c l0 s1 A B P1|i0 c l0 s1 A P1|i0 nm ar par sa sp l0 s1 A B D P1]; subst.
    - destruct (special_false c A) as (Q1 & Q2 & Q3 & Q4 & Q5). destruct (run i l s1 P1 rest R) as (u & s2 & l2 & S & P2 & M & L).
      exists (PText (c :: u)), s2, l2. cbn [app]. rewrite next_S. rewrite Q1, Q2, Q3, Q4, Q5. cbn [span]. rewrite A. cbn [negb]. rewrite S. repeat split; auto; [cbn; now rewrite M|cbn; lia].
    - exists (PText [c]), s1, l. assert (length s1 < length (c :: c :: s1))%nat by (cbn; lia). destruct (bracket_cases c A) as [->|[->|[->| ->]]]; repeat split; auto.
    - exists (PText [c]), s1, l. assert (length s1 < length (c_bs :: c :: s1))%nat by (cbn; lia). split; [|auto].
      cbn [app]. rewrite next_S. change (c_bs =? c_lb) with false. change (c_bs =? c_rb) with false. change (c_bs =? c_lp) with false. change (c_bs =? c_rp) with false. change (c_bs =? c_bs) with true. cbn match. now rewrite A.
    - assert (LB : forall a b : text, (length (a ++ b) = length a + length b)%nat) by (intros; apply app_length).
      destruct (after_name ar sa par sp (s1 ++ rest) B D) as (c0 & u0 & EQ & IC).
      assert (NM : name alpha alnum (nm ++ sa ++ sp ++ c_rb :: s1 ++ rest) = (nm, sa ++ sp ++ c_rb :: s1 ++ rest)).
      { apply name_ok; [exact A|]. rewrite EQ. exact IC. }
      assert (NL : consume c_lb (nm ++ sa ++ sp ++ c_rb :: s1 ++ rest) = None).
      { destruct nm as [|c nm].
        - cbn [app]. rewrite EQ. cbn [consume]. destruct (syn _ IC) as (_ & _ & _ & ->). reflexivity.
        - cbn [app consume]. destruct A as (A1 & _). destruct (c =? c_lb) eqn:Z; [|reflexivity]. apply N.eqb_eq in Z. subst c. destruct (SY c_lb) as (SA & _); [cbn; auto|]. rewrite SA in A1. discriminate. }
      destruct (IA sa) with (ar := ar) (rest := sp ++ c_rb :: s1 ++ rest) (n := n) as (ls & AR & MT).
      { cbn [length]. rewrite !LB. lia. }
      { exact B. }
      { destruct (spec_head _ _ D) as [->|(u & ->)]; cbn [app]; discriminate. }
      { cbn [app length] in F. rewrite !LB in F. cbn [length] in F. rewrite !LB. cbn [length]. rewrite LB. lia. }
      exists (PArg nm ls par), s1, l. replace ((c_lb :: nm ++ sa ++ sp ++ c_rb :: s1) ++ rest) with (c_lb :: nm ++ sa ++ sp ++ c_rb :: s1 ++ rest) by (cbn [app]; rewrite <- !app_assoc; reflexivity).
      rewrite next_S. change (c_lb =? c_lb) with true. cbn match. rewrite NL, NM. cbv beta iota. rewrite AR. cbv beta iota. rewrite (parameters_ok par sp (s1 ++ rest) D). cbv beta iota. cbn [consume]. change (c_rb =? c_rb) with true. cbn match. repeat split; auto.
      + cbn [toks app]. rewrite <- MT. reflexivity.
      + cbn [length]. rewrite !LB. cbn [length]. lia.
  Qed.
  Lemma arg_step s : next_ok s -> (forall s', (length s' < length s)%nat -> arg_ok s') -> arg_ok s.
  Proof.
    intros IN IA a rest n P F. destruct n as [|n]; [lia|]. destruct a as [|t a].
    - inversion P; subst. exists []. cbn. auto.
    - assert (NC : consume c_rp (s ++ c_rp :: rest) = None).
      { inversion P as [i0|i0 c l0 s1 A P1|i0 c l0 s1 A B P1|i0 c l0 s1 A P1|i0 nm ar par sa sp l0 s1 A B D P1]; subst; cbn [app consume]; try reflexivity.
        - destruct (special_false c A) as (_ & _ & _ & -> & _). reflexivity.
        - destruct (c =? c_rp) eqn:Z; [|reflexivity]. apply N.eqb_eq in Z. now specialize (B eq_refl). }
      destruct (IN true t a (c_rp :: rest) n P eq_refl ltac:(lia)) as (p & s' & l' & N1 & P' & T & L).
      destruct (IA s' L l' rest n P') as (l & AR & M). { rewrite !app_length in F |- *. cbn [length] in *. lia. }
      exists (p :: l). rewrite ?arg_S. rewrite NC, N1, AR. split; [reflexivity|]. cbn [flat_map]. rewrite M. exact T.
  Qed.
  Lemma args_step s : (forall s', (length s' < length s)%nat -> arg_ok s') -> (forall s', (length s' < length s)%nat -> args_ok s') -> args_ok s.
  Proof.
    intros IG IS ar rest n P R F. destruct n as [|n]; [lia|]. inversion P as [|a ar' s1 s2 P1 P2]; subst.
    - exists []. cbn [app]. rewrite args_S. split; [|reflexivity]. destruct rest as [|c rest]; [reflexivity|]. cbn [consume]. destruct (c =? c_lp) eqn:Z; [apply N.eqb_eq in Z; contradiction|reflexivity].
    - assert (LB : forall a b : text, (length (a ++ b) = length a + length b)%nat) by (intros; apply app_length).
      replace ((c_lp :: s1 ++ c_rp :: s2) ++ rest) with (c_lp :: s1 ++ c_rp :: s2 ++ rest) in * by (cbn [app]; rewrite <- app_assoc; reflexivity).
      cbn [length] in F. rewrite LB in F. cbn [length] in F. rewrite LB in F.
      destruct (IG s1) with (a := a) (rest := s2 ++ rest) (n := n) as (l & AR & M). { cbn [length]. rewrite LB. lia. } { exact P1. } { rewrite LB. cbn [length]. rewrite LB. lia. }
      destruct (IS s2) with (ar := ar') (rest := rest) (n := n) as (ls & ARS & MS). { cbn [length]. rewrite LB. cbn [length]. lia. } { exact P2. } { exact R. } { rewrite LB. lia. }
      exists (l :: ls). rewrite args_S. cbn [consume]. change (c_lp =? c_lp) with true. cbn match. rewrite AR, ARS. split; [reflexivity|]. cbn [map]. now rewrite M, MS.
  Qed.
  Lemma all_ok N : forall s, (length s < N)%nat -> next_ok s /\ arg_ok s /\ args_ok s.
  Proof.
    induction N as [|N IH]; intros s L; [lia|]. assert (IA : forall s', (length s' < length s)%nat -> args_ok s') by (intros s' L'; apply IH; lia). assert (IG : forall s', (length s' < length s)%nat -> arg_ok s') by (intros s' L'; apply IH; lia).
    assert (NX := next_step s IA). split; [exact NX|]. split; [apply arg_step; assumption|apply args_step; assumption].
  Qed.
  Lemma pieces_ok : forall n s ts m, prints false ts s -> (length s < n)%nat -> (2 * length s + 1 <= m)%nat -> toks_all (pieces alpha alnum n m s) = ts.
  Proof.
    induction n as [|n IH]; intros s ts m P L F; [lia|]. cbn [pieces]. destruct ts as [|t ts].
    - inversion P; subst. destruct m; reflexivity.
    - destruct (all_ok (S (length s)) s ltac:(lia)) as (NX & _ & _). destruct (NX false t ts [] m P I ltac:(rewrite app_nil_r; lia)) as (p & s' & l' & E & P' & T & L'). rewrite !app_nil_r in E. rewrite E. cbn [toks_all flat_map]. unfold toks_all in IH. rewrite (IH s' l' m P'); [exact T|lia|lia].
  Qed.
  Lemma parse_ok s ts : prints false ts s -> toks_all (parse alpha alnum s) = ts.
  Proof. intro P. apply pieces_ok; [exact P|lia|lia]. Qed.
  (* one formatter whose arguments are plain text *)
  Definition plain (s : text) : Prop := s <> [] /\ forallb (fun c => negb (special c)) s = true.
  Lemma arg_plain s rest n : plain s -> (3 <= n)%nat -> arg n (s ++ c_rp :: rest) = inr ([PText s], rest).
  Proof.
    intros (NE & P) L. destruct n as [|[|[|n]]]; try lia. destruct s as [|c s]; [congruence|]. cbn [forallb] in P. apply andb_true_iff in P. destruct P as (A & P). apply negb_true_iff in A.
    destruct (special_false c A) as (Q1 & Q2 & Q3 & Q4 & Q5). rewrite arg_S. cbn [app consume]. rewrite Q4. rewrite next_S. rewrite Q1, Q2, Q3, Q4, Q5.
    cbn [span]. rewrite A. cbn [negb]. rewrite span_app by (try assumption; reflexivity). rewrite arg_S. cbn [consume]. reflexivity.
  Qed.
  Lemma args_plain l : forall rest n, Forall plain l -> match rest with c :: _ => c <> c_lp | [] => True end -> (length l + 3 <= n)%nat ->
    args n (flat_map (fun a => c_lp :: a ++ [c_rp]) l ++ rest) = inr (map (fun a => [PText a]) l, rest).
  Proof.
    induction l as [|a l IH]; intros rest n F R L; (destruct n as [|n]; [lia|]); rewrite args_S.
    - cbn [flat_map app map]. destruct rest as [|c rest]; [reflexivity|]. cbn [consume]. destruct (c =? c_lp) eqn:Z; [apply N.eqb_eq in Z; contradiction|reflexivity].
    - inversion F as [|x y P F']; subst. cbn [flat_map map app consume]. change (c_lp =? c_lp) with true. cbn match.
      replace (((a ++ [c_rp]) ++ flat_map (fun a => c_lp :: a ++ [c_rp]) l) ++ rest) with (a ++ c_rp :: flat_map (fun a => c_lp :: a ++ [c_rp]) l ++ rest) by (rewrite <- !app_assoc; reflexivity).
      cbn [length] in L. rewrite arg_plain by (try assumption; lia). rewrite IH by (try assumption; lia). reflexivity.
  Qed.
  Lemma parse_plain nm l par sp : is_ident alpha alnum nm -> Forall plain l -> spec_prints par sp ->
    parse alpha alnum (c_lb :: nm ++ flat_map (fun a => c_lp :: a ++ [c_rp]) l ++ sp ++ [c_rb]) = [PArg nm (map (fun a => [PText a]) l) par].
  Proof.
    intros A F D. set (sa := flat_map (fun a => c_lp :: a ++ [c_rp]) l).
    assert (LA : (3 * length l <= length sa)%nat).
    { subst sa. clear -F. induction F as [|a l (P & _) F IH]; [cbn; lia|]. cbn [flat_map]. cbn [app length]. rewrite !app_length. cbn [length]. destruct a; [congruence|cbn [length]; lia]. }
    assert (HD : match sa ++ sp ++ [c_rb] with c :: _ => In c [c_rb; c_lp; 58] | [] => False end).
    { subst sa. destruct l as [|a l]; cbn [flat_map app]; [|cbn; auto]. destruct (spec_head _ _ D) as [->|(u & ->)]; cbn; auto. }
    assert (NL : consume c_lb (nm ++ sa ++ sp ++ [c_rb]) = None).
    { destruct nm as [|c nm].
      - cbn [app]. destruct (sa ++ sp ++ [c_rb]) as [|c u]; [contradiction|]. cbn [consume]. destruct (syn _ HD) as (_ & _ & _ & ->). reflexivity.
      - cbn [app consume]. destruct A as (A1 & _). destruct (c =? c_lb) eqn:Z; [|reflexivity]. apply N.eqb_eq in Z. subst c. destruct (SY c_lb) as (SA & _); [cbn; auto|]. rewrite SA in A1. discriminate. }
    unfold parse. cbn [length]. rewrite !app_length. cbn [length].
    remember (2 * S (length nm + (length sa + (length sp + 1))) + 2)%nat as m eqn:M. destruct m as [|m]; [lia|].
    assert (NX : next (S m) (c_lb :: nm ++ sa ++ sp ++ [c_rb]) = Some (PArg nm (map (fun a => [PText a]) l) par, [])).
    { rewrite next_S. change (c_lb =? c_lb) with true. cbn match. rewrite NL. rewrite name_ok by assumption. cbv beta iota.
      subst sa. rewrite args_plain; [|exact F|destruct (spec_head _ _ D) as [->|(u & ->)]; cbn [app]; discriminate|destruct l; cbn [length] in *; lia].
      cbv beta iota. rewrite (parameters_ok par sp [] D). cbv beta iota. cbn [consume]. change (c_rb =? c_rb) with true. reflexivity. }
    cbn [pieces]. rewrite NX. destruct (length nm + (length sa + (length sp + 1)))%nat eqn:Q; [lia|]. cbn [pieces]. reflexivity.
  Qed.
End P.

(* ---- the bound is never reached ---- *)
Section Fuel.
  Context (alpha alnum : N -> bool).
  Notation next := (next alpha alnum).
  Notation args := (args alpha alnum).
  Notation arg := (arg alpha alnum).
  Lemma span_len p s : forall a b, span p s = (a, b) -> (length b <= length s)%nat.
  Proof. induction s as [|c s IH]; cbn [span]; intros a b H; [injection H as <- <-; lia|]. destruct (p c). - destruct (span p s) as (x, y). injection H as <- <-. specialize (IH x y eq_refl). cbn; lia. - injection H as <- <-. lia. Qed.
  Lemma name_len s a b : name alpha alnum s = (a, b) -> (length b <= length s)%nat.
  Proof. destruct s as [|c s]; cbn [name]; intro H; [injection H as <- <-; lia|]. destruct (_ || _). - destruct (span _ s) as (x, y) eqn:E. injection H as <- <-. apply span_len in E. cbn; lia. - injection H as <- <-. lia. Qed.
  Lemma consume_len c s s' : consume c s = Some s' -> length s = S (length s').
  Proof. destruct s as [|d s]; cbn [consume]; [discriminate|]. destruct (d =? c); [|discriminate]. intro H. now injection H as <-. Qed.
  Lemma integer_len s a b : integer s = (a, b) -> (length b <= length s)%nat.
  Proof. unfold integer. destruct (span is_digit s) as (x, y) eqn:E. apply span_len in E. destruct x; intro H; injection H as <- <-; lia. Qed.
  Lemma parameters_len s a b : parameters s = (a, b) -> (length b <= length s)%nat.
  Proof.
    unfold parameters. destruct (consume 58 s) as [s1|] eqn:E; [|intro H; injection H as <- <-; lia]. apply consume_len in E.
    destruct (match s1 with c :: d :: s' => if (d =? 60) || (d =? 62) then (c, d :: s') else (32, s1) | _ => (32, s1) end) as (fl, s2) eqn:E2.
    assert (L2 : (length s2 <= length s1)%nat). { destruct s1 as [|c [|d s1]]; [| |destruct (_ || _)]; injection E2 as <- <-; cbn; lia. }
    destruct (match consume 60 s2 with Some s' => (false, s') | None => match consume 62 s2 with Some s' => (true, s') | None => (false, s2) end end) as (rt, s3) eqn:E3.
    assert (L3 : (length s3 <= length s2)%nat). { destruct (consume 60 s2) eqn:C1; [apply consume_len in C1; injection E3 as <- <-; lia|]. destruct (consume 62 s2) eqn:C2; [apply consume_len in C2|]; injection E3 as <- <-; lia. }
    destruct (integer s3) as (mn, s4) eqn:E4. apply integer_len in E4. destruct (match consume 46 s4 with Some s' => integer s' | None => (None, s4) end) as (mx, s5) eqn:E5. intro H. injection H as <- <-.
    destruct (consume 46 s4) eqn:C3; [apply consume_len in C3; apply integer_len in E5; lia|injection E5 as <- <-; lia].
  Qed.
  (* enough is enough, and what is left is shorter *)
  Definition nf (s : text) : Prop := forall n m, (2 * length s + 1 <= n)%nat -> (2 * length s + 1 <= m)%nat -> next n s = next m s /\ (forall p s', next n s = Some (p, s') -> (length s' < length s)%nat) /\ (next n s = None -> s = []).
  Definition gf (s : text) : Prop := forall n m, (2 * length s + 2 <= n)%nat -> (2 * length s + 2 <= m)%nat -> arg n s = arg m s /\ match arg n s with inl (_, s') => (length s' <= length s)%nat | inr (_, s') => (length s' <= length s)%nat end.
  Definition af (s : text) : Prop := forall n m, (2 * length s + 1 <= n)%nat -> (2 * length s + 1 <= m)%nat -> args n s = args m s /\ match args n s with inl (_, s') => (length s' <= length s)%nat | inr (_, s') => (length s' <= length s)%nat end.
  Lemma nf_step s : (forall s', (length s' < length s)%nat -> af s') -> nf s.
  Proof.
    intros IA n m F G. destruct n as [|n]; [lia|]. destruct m as [|m]; [lia|]. rewrite !next_S. destruct s as [|c s].
    { repeat split; congruence. }
    destruct (c =? c_lb) eqn:Q1.
    { destruct (consume c_lb s) as [s2|] eqn:E; [apply consume_len in E; split; [reflexivity|split; [intros p s' H; injection H as <- <-; cbn; lia|discriminate]]|].
      destruct (name alpha alnum s) as (nm, s2) eqn:EN. apply name_len in EN. destruct (IA s2 ltac:(cbn; lia) n m ltac:(cbn in F; lia) ltac:(cbn in G; lia)) as (EA & LA). rewrite <- EA.
      destruct (args n s2) as [(e, s3)|(l, s3)].
      - split; [reflexivity|]. split; [|destruct (consume c_rb s3); discriminate]. intros p s' H. destruct (consume c_rb s3) eqn:CR; [apply consume_len in CR; injection H as <- <-; cbn; lia|injection H as <- <-; cbn; lia].
      - destruct (parameters s3) as (par, s4) eqn:EP. apply parameters_len in EP. split; [reflexivity|]. split; [|destruct (consume c_rb s4); discriminate]. intros p s' H. destruct (consume c_rb s4) eqn:CR; [apply consume_len in CR; injection H as <- <-; cbn; lia|injection H as <- <-; cbn; lia]. }
    destruct (c =? c_rb) eqn:Q2. { destruct (consume c_rb s) as [s2|] eqn:E; [apply consume_len in E|]; (split; [reflexivity|split; [intros p s' H; injection H as <- <-; cbn; lia|discriminate]]). }
    destruct (c =? c_lp) eqn:Q3. { destruct (consume c_lp s) as [s2|] eqn:E; [apply consume_len in E|]; (split; [reflexivity|split; [intros p s' H; injection H as <- <-; cbn; lia|discriminate]]). }
    destruct (c =? c_rp) eqn:Q4. { destruct (consume c_rp s) as [s2|] eqn:E; [apply consume_len in E|]; (split; [reflexivity|split; [intros p s' H; injection H as <- <-; cbn; lia|discriminate]]). }
    destruct (c =? c_bs) eqn:Q5. { destruct s as [|d s2]; [|destruct (special d)]; (split; [reflexivity|split; [intros p s' H; injection H as <- <-; cbn; lia|discriminate]]). }
    assert (SC : special c = false) by (unfold special, bracket; rewrite Q1, Q2, Q3, Q4, Q5; reflexivity).
    split; [reflexivity|]. cbn [span]. rewrite SC. cbn [negb]. destruct (span (fun d => negb (special d)) s) as (t, s2) eqn:ES. apply span_len in ES. split; [|discriminate]. intros p s' H. injection H as <- <-. cbn; lia.
  Qed.
  Lemma gf_step s : nf s -> (forall s', (length s' < length s)%nat -> gf s') -> gf s.
  Proof.
    intros IN IG n m F G. destruct n as [|n]; [lia|]. destruct m as [|m]; [lia|]. rewrite ?arg_S. destruct (consume c_rp s) as [s1|] eqn:E; [apply consume_len in E; split; [reflexivity|lia]|].
    destruct (IN n m ltac:(lia) ltac:(lia)) as (EN & LN & _). rewrite <- EN. destruct (next n s) as [(p, s1)|]; [|split; [reflexivity|lia]]. specialize (LN p s1 eq_refl).
    destruct (IG s1 LN n m ltac:(lia) ltac:(lia)) as (EG & LG). rewrite <- EG. destruct (arg n s1) as [(e, s2)|(l, s2)]; (split; [reflexivity|lia]).
  Qed.
  Lemma af_step s : (forall s', (length s' < length s)%nat -> gf s') -> (forall s', (length s' < length s)%nat -> af s') -> af s.
  Proof.
    intros IG IA n m F G. destruct n as [|n]; [lia|]. destruct m as [|m]; [lia|]. rewrite ?args_S. destruct (consume c_lp s) as [s1|] eqn:E; [apply consume_len in E|split; [reflexivity|lia]].
    destruct (IG s1 ltac:(lia) n m ltac:(lia) ltac:(lia)) as (EG & LG). rewrite <- EG. destruct (arg n s1) as [(e, s2)|(l, s2)]; [split; [reflexivity|lia]|].
    destruct (IA s2 ltac:(lia) n m ltac:(lia) ltac:(lia)) as (EA & LA). rewrite <- EA. destruct (args n s2) as [(e, s3)|(ls, s3)]; (split; [reflexivity|lia]).
  Qed.
  Lemma all_f N : forall s, (length s < N)%nat -> nf s /\ gf s /\ af s.
  Proof.
    induction N as [|N IH]; intros s L; [lia|]. assert (IA : forall s', (length s' < length s)%nat -> af s') by (intros s' L'; apply IH; lia). assert (IG : forall s', (length s' < length s)%nat -> gf s') by (intros s' L'; apply IH; lia).
    assert (NX := nf_step s IA). split; [exact NX|]. split; [apply gf_step; assumption|apply af_step; assumption].
  Qed.
  Lemma next_fuel s : nf s. Proof. apply (all_f (S (length s))). lia. Qed.
  (* any larger bounds give the same pieces *)
  Lemma pieces_fuel : forall n m k j s, (length s < n)%nat -> (length s < m)%nat -> (2 * length s + 1 <= k)%nat -> (2 * length s + 1 <= j)%nat -> pieces alpha alnum n k s = pieces alpha alnum m j s.
  Proof.
    induction n as [|n IH]; intros m k j s A B C D; [lia|]. destruct m as [|m]; [lia|]. cbn [pieces]. destruct (next_fuel s k j C D) as (E & L & _). rewrite <- E. destruct (next k s) as [(p, s')|]; [|reflexivity]. specialize (L p s' eq_refl). f_equal. apply IH; lia.
  Qed.
End Fuel.
