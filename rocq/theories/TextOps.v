(* The std string operations /repo uses on configuration text.  Text is a list
   of Unicode scalar values here (Text.v maps it to bytes).  Not part of /repo:
   this is the meaning of std that the models of the parsers rest on. *)
From Verif Require Import Base.
Open Scope N_scope.

Definition text := list N.

(* char::is_whitespace: the Unicode White_Space property *)
Definition is_ws (c : N) : bool :=
  ((9 <=? c) && (c <=? 13)) || (c =? 32) || (c =? 0x85) || (c =? 0xA0) || (c =? 0x1680)
  || ((0x2000 <=? c) && (c <=? 0x200A)) || (c =? 0x2028) || (c =? 0x2029) || (c =? 0x202F)
  || (c =? 0x205F) || (c =? 0x3000).
Definition is_digit (c : N) : bool := (48 <=? c) && (c <=? 57).

(* Display of an unsigned integer *)
Fixpoint dec (fuel : nat) (n : N) : text :=
  match fuel with
  | O => []
  | S f => if n <? 10 then [48 + n] else dec f (n / 10) ++ [48 + n mod 10]
  end.
Definition show (n : N) : text := dec (S (N.to_nat (N.log2 n))) n.

(* str::parse for an unsigned integer type of the given maximum: an optional
   plus sign and at least one digit *)
Fixpoint digits (acc : N) (s : text) : option N :=
  match s with
  | [] => Some acc
  | c :: s' => if is_digit c then digits (acc * 10 + (c - 48)) s' else None
  end.
Definition strip_plus (s : text) : text := match s with c :: s' => if c =? 43 then s' else s | [] => [] end.
Definition parse_uint (max : N) (s : text) : option N :=
  match strip_plus s with
  | [] => None
  | c :: s' => match digits 0 (c :: s') with
               | Some n => if n <=? max then Some n else None
               | None => None
               end
  end.
Definition u8_max : N := 255.
Definition u16_max : N := 65535.
Definition u64_max : N := 2 ^ 64 - 1.

(* str::split with a char *)
Fixpoint split_acc (d : N) (acc s : text) : list text :=
  match s with
  | [] => [acc]
  | c :: s' => if c =? d then acc :: split_acc d [] s' else split_acc d (acc ++ [c]) s'
  end.
Definition split_on (d : N) (s : text) : list text := split_acc d [] s.

(* str::split_whitespace *)
Definition flush (acc : text) : list text := match acc with [] => [] | _ => [acc] end.
Fixpoint split_ws_acc (acc s : text) : list text :=
  match s with
  | [] => flush acc
  | c :: s' => if is_ws c then flush acc ++ split_ws_acc [] s' else split_ws_acc (acc ++ [c]) s'
  end.
Definition split_ws (s : text) : list text := split_ws_acc [] s.

(* str::trim, trim_start_matches / trim_end_matches with a char predicate *)
Fixpoint drop_while (p : N -> bool) (s : text) : text :=
  match s with [] => [] | c :: s' => if p c then drop_while p s' else s end.
Definition trim_start_p (p : N -> bool) (s : text) : text := drop_while p s.
Definition trim_end_p (p : N -> bool) (s : text) : text := rev (drop_while p (rev s)).
Definition trim (s : text) : text := trim_end_p is_ws (trim_start_p is_ws s).

(* str::strip_prefix, strip_suffix, ends_with, find *)
Fixpoint strip_prefix (p s : text) : option text :=
  match p, s with
  | [], _ => Some s
  | x :: p', y :: s' => if x =? y then strip_prefix p' s' else None
  | _ :: _, [] => None
  end.
Definition strip_suffix (p s : text) : option text :=
  match strip_prefix (rev p) (rev s) with Some r => Some (rev r) | None => None end.
Definition starts_with (p s : text) : bool := match strip_prefix p s with Some _ => true | None => false end.
Definition ends_with (p s : text) : bool := match strip_suffix p s with Some _ => true | None => false end.
(* the text after the first occurrence of p *)
Fixpoint after_first (p s : text) : option text :=
  match strip_prefix p s with
  | Some r => Some r
  | None => match s with [] => None | _ :: s' => after_first p s' end
  end.
(* trim_end_matches with a string: the suffix is removed as often as possible
   (fuel: one removal shortens the text) *)
Fixpoint trim_end_fuel (fuel : nat) (p s : text) : text :=
  match fuel with
  | O => s
  | S f => match strip_suffix p s with Some r => trim_end_fuel f p r | None => s end
  end.
Definition trim_end_str (p s : text) : text := trim_end_fuel (length s) p s.

(* ---- facts -------------------------------------------------------------------- *)
Lemma digits_app a : forall acc b, digits acc (a ++ b) =
  match digits acc a with Some n => digits n b | None => None end.
Proof.
  induction a as [|c a IH]; intros acc b; cbn [digits app]; [reflexivity|].
  destruct (is_digit c); [apply IH|reflexivity].
Qed.
Lemma dec_digits fuel : forall n, (N.to_nat (N.log2 n) < fuel)%nat ->
  forallb is_digit (dec fuel n) = true /\ dec fuel n <> [] /\ digits 0 (dec fuel n) = Some n.
Proof.
  induction fuel as [|f IH]; intros n Hf; [lia|]. cbn [dec].
  destruct (N.ltb_spec n 10) as [Hn|Hn].
  - split; [cbn; unfold is_digit; lia|]. split; [discriminate|]. cbn [digits]. unfold is_digit.
    replace ((48 <=? 48 + n) && (48 + n <=? 57)) with true by lia. f_equal. lia.
  - assert (Hl : (N.to_nat (N.log2 (n / 10)) < f)%nat).
    { assert (N.log2 (n / 10) < N.log2 n); [|lia].
      assert (1 + N.log2 (n / 10) <= N.log2 n); [|lia].
      rewrite N.add_1_l, <- N.log2_double by lia. apply N.log2_le_mono. lia. }
    destruct (IH (n / 10) Hl) as (A & B & C). split; [|split].
    + rewrite forallb_app, A. cbn. unfold is_digit. lia.
    + intros E. apply app_eq_nil in E as [_ E]. discriminate.
    + rewrite digits_app, C. cbn [digits]. unfold is_digit.
      replace ((48 <=? 48 + n mod 10) && (48 + n mod 10 <=? 57)) with true by lia. f_equal. lia.
Qed.
Lemma show_digits n : forallb is_digit (show n) = true.
Proof. apply dec_digits. lia. Qed.
Lemma show_nonempty n : show n <> [].
Proof. apply dec_digits. lia. Qed.
Lemma parse_show max n : n <= max -> parse_uint max (show n) = Some n.
Proof.
  intros H. unfold parse_uint. destruct (dec_digits (S (N.to_nat (N.log2 n))) n) as (A & B & C); [lia|].
  change (dec (S (N.to_nat (N.log2 n))) n) with (show n) in *.
  destruct (show n) as [|c s] eqn:E; [contradiction|].
  assert (Hc : c <> 43). { cbn in A. unfold is_digit in A. lia. }
  cbn [strip_plus]. replace (c =? 43) with false by lia. rewrite C. replace (n <=? max) with true by lia. reflexivity.
Qed.
Lemma parse_digits_head max c s : is_digit c = false -> c <> 43 -> parse_uint max (c :: s) = None.
Proof.
  intros H1 H2. unfold parse_uint.
  cbn [strip_plus]. replace (c =? 43) with false by lia. cbn [digits]. rewrite H1. reflexivity.
Qed.

Definition no_char (d : N) (s : text) : bool := forallb (fun c => negb (c =? d)) s.
Lemma no_char_app d a b : no_char d (a ++ b) = no_char d a && no_char d b.
Proof. apply forallb_app. Qed.
Lemma digit_no_char d s : is_digit d = false -> forallb is_digit s = true -> no_char d s = true.
Proof.
  intros Hd H. apply forallb_forall. intros c Hc. rewrite forallb_forall in H. specialize (H c Hc).
  destruct (N.eqb_spec c d) as [->|]; [congruence|reflexivity].
Qed.

Lemma split_acc_app d a : forall acc b, no_char d a = true -> split_acc d acc (a ++ d :: b) = (acc ++ a) :: split_on d b.
Proof.
  induction a as [|c a IH]; intros acc b H; cbn [app split_acc].
  - rewrite N.eqb_refl, app_nil_r. reflexivity.
  - cbn in H. apply andb_true_iff in H as [H1 H2]. destruct (c =? d); [discriminate|].
    rewrite IH by exact H2. rewrite <- app_assoc. reflexivity.
Qed.
Lemma split_acc_one d a : forall acc, no_char d a = true -> split_acc d acc a = [acc ++ a].
Proof.
  induction a as [|c a IH]; intros acc H; cbn [split_acc]; [rewrite app_nil_r; reflexivity|].
  cbn in H. apply andb_true_iff in H as [H1 H2]. destruct (c =? d); [discriminate|].
  rewrite IH by exact H2. rewrite <- app_assoc. reflexivity.
Qed.
Lemma split_on_app d a b : no_char d a = true -> split_on d (a ++ d :: b) = a :: split_on d b.
Proof. intros H. unfold split_on at 1. rewrite split_acc_app by exact H. reflexivity. Qed.
Lemma split_on_one d a : no_char d a = true -> split_on d a = [a].
Proof. intros H. unfold split_on. rewrite split_acc_one by exact H. reflexivity. Qed.

Definition word (s : text) : bool := match s with [] => false | _ => forallb (fun c => negb (is_ws c)) s end.
Definition no_ws (s : text) : bool := forallb (fun c => negb (is_ws c)) s.
Lemma word_no_ws s : word s = true -> no_ws s = true.
Proof. destruct s; [discriminate|]. exact (fun H => H). Qed.
Lemma no_ws_app a b : no_ws (a ++ b) = no_ws a && no_ws b.
Proof. apply forallb_app. Qed.
Lemma digits_no_ws s : forallb is_digit s = true -> no_ws s = true.
Proof.
  intros H. apply forallb_forall. intros c Hc. rewrite forallb_forall in H. specialize (H c Hc).
  unfold is_digit, is_ws in *. lia.
Qed.

Lemma split_ws_acc_app a : forall acc c b, no_ws a = true -> is_ws c = true ->
  split_ws_acc acc (a ++ c :: b) = flush (acc ++ a) ++ split_ws b.
Proof.
  induction a as [|x a IH]; intros acc c b H Hc; cbn [app split_ws_acc].
  - rewrite Hc, app_nil_r. reflexivity.
  - cbn in H. apply andb_true_iff in H as [H1 H2]. destruct (is_ws x); [discriminate|].
    rewrite IH by assumption. rewrite <- app_assoc. reflexivity.
Qed.
Lemma split_ws_acc_one a : forall acc, no_ws a = true -> split_ws_acc acc a = flush (acc ++ a).
Proof.
  induction a as [|x a IH]; intros acc H; cbn [split_ws_acc]; [rewrite app_nil_r; reflexivity|].
  cbn in H. apply andb_true_iff in H as [H1 H2]. destruct (is_ws x); [discriminate|].
  rewrite IH by assumption. rewrite <- app_assoc. reflexivity.
Qed.
Lemma split_ws_app w c b : word w = true -> is_ws c = true -> split_ws (w ++ c :: b) = w :: split_ws b.
Proof.
  intros H Hc. unfold split_ws at 1. rewrite split_ws_acc_app by (try assumption; apply word_no_ws; exact H).
  destruct w; [discriminate|]. reflexivity.
Qed.
Lemma split_ws_one w : word w = true -> split_ws w = [w].
Proof.
  intros H. unfold split_ws. rewrite split_ws_acc_one by (apply word_no_ws; exact H).
  destruct w; [discriminate|]. reflexivity.
Qed.
Lemma split_ws_skip c b : is_ws c = true -> split_ws (c :: b) = split_ws b.
Proof. intros H. unfold split_ws at 1. cbn [split_ws_acc]. rewrite H. reflexivity. Qed.
Lemma split_ws_words s : Forall (fun w => word w = true) (split_ws s).
Proof.
  assert (G : forall s acc, no_ws acc = true -> Forall (fun w => word w = true) (split_ws_acc acc s)).
  { clear s. induction s as [|c s IH]; intros acc H; cbn [split_ws_acc].
    - destruct acc; constructor; [exact H|constructor].
    - destruct (is_ws c) eqn:Ec.
      + apply Forall_app. split; [destruct acc; constructor; [exact H|constructor]|apply IH; reflexivity].
      + apply IH. rewrite no_ws_app, H. cbn. rewrite Ec. reflexivity. }
  apply G. reflexivity.
Qed.

Lemma drop_while_none p s : forallb (fun c => negb (p c)) s = true -> drop_while p s = s.
Proof. destruct s as [|c s]; [reflexivity|]. cbn. destruct (p c); [discriminate|reflexivity]. Qed.
Lemma forallb_rev {A} (p : A -> bool) l : forallb p (rev l) = forallb p l.
Proof.
  induction l as [|x l IH]; [reflexivity|]. cbn [rev]. rewrite forallb_app, IH. cbn. destruct (p x), (forallb p l); reflexivity.
Qed.
Lemma trim_end_none p s : forallb (fun c => negb (p c)) s = true -> trim_end_p p s = s.
Proof. intros H. unfold trim_end_p. rewrite drop_while_none; [apply rev_involutive|]. rewrite forallb_rev. exact H. Qed.
Lemma trim_no_ws s : no_ws s = true -> trim s = s.
Proof. intros H. unfold trim, trim_start_p. rewrite drop_while_none by exact H. apply trim_end_none. exact H. Qed.
Lemma drop_while_app p a b : forallb p a = true -> drop_while p (a ++ b) = drop_while p b.
Proof.
  induction a as [|c a IH]; intros H; [reflexivity|]. cbn in *. apply andb_true_iff in H as [H1 H2]. rewrite H1. apply IH. exact H2.
Qed.
Lemma trim_end_app p a b : forallb p b = true -> trim_end_p p (a ++ b) = trim_end_p p a.
Proof. intros H. unfold trim_end_p. rewrite rev_app_distr, drop_while_app; [reflexivity|]. rewrite forallb_rev. exact H. Qed.

Lemma strip_prefix_some p s r : strip_prefix p s = Some r <-> s = p ++ r.
Proof.
  revert s. induction p as [|x p IH]; intros s; cbn [strip_prefix app].
  - split; [intros H; injection H as ->; reflexivity|intros ->; reflexivity].
  - destruct s as [|y s]; [split; discriminate|]. destruct (N.eqb_spec x y) as [->|Hne].
    + rewrite IH. split; [intros ->; reflexivity|intros H; injection H; auto].
    + split; [discriminate|]. intros H. injection H. congruence.
Qed.
Lemma strip_prefix_none p s : strip_prefix p s = None <-> ~ exists r, s = p ++ r.
Proof.
  destruct (strip_prefix p s) as [r|] eqn:E.
  - split; [discriminate|]. intros H. exfalso. apply H. exists r. apply strip_prefix_some. exact E.
  - split; [|reflexivity]. intros _ [r Hr]. apply strip_prefix_some in Hr. congruence.
Qed.
Lemma strip_suffix_some p s r : strip_suffix p s = Some r <-> s = r ++ p.
Proof.
  unfold strip_suffix. destruct (strip_prefix (rev p) (rev s)) as [q|] eqn:E.
  - apply strip_prefix_some in E. assert (E' : s = rev q ++ p).
    { rewrite <- (rev_involutive s), E, rev_app_distr, rev_involutive. reflexivity. }
    split; [intros H; injection H as <-; exact E'|]. intros ->. f_equal. apply app_inv_tail in E'. congruence.
  - split; [discriminate|]. intros ->. exfalso. apply strip_prefix_none in E. apply E. exists (rev r).
    rewrite rev_app_distr. reflexivity.
Qed.
Lemma strip_suffix_none p s : strip_suffix p s = None <-> ~ exists r, s = r ++ p.
Proof.
  destruct (strip_suffix p s) as [r|] eqn:E.
  - split; [discriminate|]. intros H. exfalso. apply H. exists r. apply strip_suffix_some. exact E.
  - split; [|reflexivity]. intros _ [r Hr]. apply strip_suffix_some in Hr. congruence.
Qed.
Lemma ends_with_true p s : ends_with p s = true <-> exists r, s = r ++ p.
Proof.
  unfold ends_with. destruct (strip_suffix p s) as [r|] eqn:E.
  - split; [intros _; exists r; apply strip_suffix_some; exact E|reflexivity].
  - split; [discriminate|]. intros H. apply strip_suffix_none in E. contradiction.
Qed.
Lemma ends_with_app p r : ends_with p (r ++ p) = true.
Proof. apply ends_with_true. exists r. reflexivity. Qed.
(* a text whose last character differs from the last character of p *)
Lemma strip_suffix_last p s x y : x <> y -> strip_suffix (p ++ [x]) (s ++ [y]) = None.
Proof.
  intros H. unfold strip_suffix. rewrite !rev_app_distr. cbn [rev app strip_prefix].
  replace (x =? y) with false by lia. reflexivity.
Qed.
Lemma trim_end_str_once p s : p <> [] -> strip_suffix p s = None -> trim_end_str p (s ++ p) = s.
Proof.
  intros Hp H. unfold trim_end_str. destruct (length (s ++ p)) as [|n] eqn:E.
  - rewrite app_length in E. destruct p; [contradiction|cbn in E; lia].
  - cbn [trim_end_fuel]. replace (strip_suffix p (s ++ p)) with (Some s) by (symmetry; apply strip_suffix_some; reflexivity).
    destruct n; cbn [trim_end_fuel]; [reflexivity|]. rewrite H. reflexivity.
Qed.
