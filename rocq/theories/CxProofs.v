From Coq Require Import String.
From Verif Require Import Base Text TextOps ConfModel ConfSpec ConfProofs CxSpec.
Open Scope N_scope.

(* ---- numbers ------------------------------------------------------------------------ *)
Lemma digits_value d : forall a, digits a d = if forallb is_digit d then Some (fold_left (fun a c => a * 10 + (c - 48)) d a) else None.
Proof.
  induction d as [|c d IH]; intros a; cbn [digits forallb fold_left]; [reflexivity|].
  destruct (is_digit c); cbn [andb]; [apply IH|reflexivity].
Qed.
Lemma digit_range d : forallb is_digit d = true <-> Forall (fun c => 48 <= c <= 57) d.
Proof.
  rewrite forallb_forall, Forall_forall. split; intros H c Hc; specialize (H c Hc); unfold is_digit in *; lia.
Qed.
Lemma count_parse t n : parse_uint u64_max t = Some n <-> count t n.
Proof.
  unfold parse_uint, count, numeral, u64_max. split.
  - intros H. destruct t as [|c t]; [discriminate H|]. cbn [strip_plus] in H.
    assert (G : exists sign d, c :: t = sign ++ d /\ (sign = [] \/ sign = [43]) /\ strip_plus (c :: t) = d).
    { cbn [strip_plus]. destruct (N.eqb_spec c 43) as [->|]; [exists [43], t; auto|exists [], (c :: t); auto]. }
    destruct G as (sign & d & E & Hs & Ed). cbn [strip_plus] in Ed. rewrite Ed in H. destruct d as [|x d]; [discriminate H|].
    rewrite digits_value in H. destruct (forallb is_digit (x :: d)) eqn:F; [|discriminate H].
    fold (value (x :: d)) in H.
    destruct (N.leb_spec (value (x :: d)) (2 ^ 64 - 1)) as [L|L]; [|discriminate H]. injection H as <-.
    split; [|lia]. exists sign, (x :: d). repeat split; try assumption; [discriminate|]. apply digit_range. exact F.
  - intros [(sign & d & -> & Hs & Hd & F & ->) L].
    assert (E : strip_plus (sign ++ d) = d).
    { destruct Hs as [->| ->]; cbn [app strip_plus]; [|reflexivity]. destruct d as [|x d]; [reflexivity|]. cbn [strip_plus].
      inversion F; subst. replace (x =? 43) with false by lia. reflexivity. }
    rewrite E. destruct d as [|x d]; [contradiction|]. rewrite digits_value. apply digit_range in F. rewrite F.
    fold (value (x :: d)). replace (value (x :: d) <=? 2 ^ 64 - 1) with true by lia. reflexivity.
Qed.
Lemma count_last t n : count t n -> exists t' c, t = t' ++ [c] /\ 48 <= c <= 57.
Proof.
  intros [(sign & d & -> & _ & Hd & F & _) _]. destruct (exists_last Hd) as (d' & c & ->). exists (sign ++ d'), c.
  split; [apply app_assoc|]. apply Forall_app in F as [_ F]. inversion F. assumption.
Qed.
Lemma count_fun t n m : count t n -> count t m -> n = m.
Proof. rewrite <- !count_parse. congruence. Qed.
Lemma count_max t n : count t n -> n <= u64_max.
Proof. intros [_ H]. unfold u64_max. lia. Qed.

(* ---- sizes -------------------------------------------------------------------------- *)
Lemma unit_power c m : unit_of c = Some m <-> exists k, power c k /\ m = 1024 ^ k.
Proof.
  unfold power, letters. split.
  - unfold unit_of. intros H.
    destruct ((c =? 107) || (c =? 75)) eqn:E1; [exists 1; split; [|injection H as <-; reflexivity];
      assert (D : c = 107 \/ c = 75) by lia; destruct D as [->| ->]; cbn; tauto|].
    destruct ((c =? 109) || (c =? 77)) eqn:E2; [exists 2; split; [|injection H as <-; reflexivity];
      assert (D : c = 109 \/ c = 77) by lia; destruct D as [->| ->]; cbn; tauto|].
    destruct ((c =? 103) || (c =? 71)) eqn:E3; [exists 3; split; [|injection H as <-; reflexivity];
      assert (D : c = 103 \/ c = 71) by lia; destruct D as [->| ->]; cbn; tauto|].
    destruct ((c =? 116) || (c =? 84)) eqn:E4; [exists 4; split; [|injection H as <-; reflexivity];
      assert (D : c = 116 \/ c = 84) by lia; destruct D as [->| ->]; cbn; tauto|].
    destruct ((c =? 112) || (c =? 80)) eqn:E5; [exists 5; split; [|injection H as <-; reflexivity];
      assert (D : c = 112 \/ c = 80) by lia; destruct D as [->| ->]; cbn; tauto|]. discriminate H.
  - intros (k & H & ->). cbn in H. repeat (destruct H as [H|H]; [injection H as <- <-; reflexivity|]). destruct H.
Qed.
Lemma unit_none c : unit_of c = None <-> forall k, ~ power c k.
Proof.
  split.
  - intros H k P. assert (G : unit_of c = Some (1024 ^ k)) by (apply unit_power; exists k; auto). congruence.
  - intros H. destruct (unit_of c) as [m|] eqn:E; [|reflexivity]. apply unit_power in E as (k & P & _). destruct (H k P).
Qed.
Lemma is_unit_power c : is_unit c = true <-> exists k, power c k.
Proof.
  unfold is_unit. destruct (unit_of c) as [m|] eqn:E.
  - apply unit_power in E as (k & P & _). split; [intros _; exists k; exact P|reflexivity].
  - split; [discriminate|]. intros (k & P). destruct (proj1 (unit_none c) E k P).
Qed.
Lemma power_low c k : power c k -> c < 128.
Proof. unfold power, letters. cbn. intros H. repeat (destruct H as [H|H]; [injection H as <- _; lia|]). destruct H. Qed.
Lemma power_fun c k j : power c k -> power c j -> 1024 ^ k = 1024 ^ j.
Proof.
  intros A B. assert (E : Some (1024 ^ k) = Some (1024 ^ j)); [|congruence].
  transitivity (unit_of c); [symmetry|]; apply unit_power; eauto.
Qed.
(* what trimming leaves *)
Lemma trim_end_split p s : exists b, s = trim_end_p p s ++ b /\ forallb p b = true /\
  match rev (trim_end_p p s) with [] => True | c :: _ => p c = false end.
Proof.
  unfold trim_end_p. rewrite rev_involutive.
  assert (G : forall r, exists b, r = b ++ drop_while p r /\ forallb p b = true /\ match drop_while p r with [] => True | c :: _ => p c = false end).
  { induction r as [|c r (b & E & F & M)]; cbn [drop_while]; [exists []; auto|]. destruct (p c) eqn:Ec.
    - exists (c :: b). cbn [app forallb]. rewrite <- E, Ec. auto.
    - exists []. rewrite Ec. auto. }
  destruct (G (rev s)) as (b & E & F & M). exists (rev b). split; [|split; [rewrite forallb_rev; exact F|exact M]].
  rewrite <- rev_app_distr, <- E. symmetry. apply rev_involutive.
Qed.
Lemma trim_end_is p t b : (exists t' c, t = t' ++ [c] /\ p c = false) -> forallb p b = true -> trim_end_p p (t ++ b) = t.
Proof.
  intros (t' & c & -> & Hc) Hb. rewrite trim_end_app by exact Hb. unfold trim_end_p. rewrite rev_app_distr. cbn [rev app drop_while].
  rewrite Hc. cbn [rev]. rewrite rev_involutive. reflexivity.
Qed.
Lemma last_byte_is s c : last_byte (s ++ [c]) = Some (if c <? 192 then c else 128 + c mod 64).
Proof.
  unfold last_byte. rewrite rev_app_distr. cbn [rev app]. f_equal. unfold utf8_char.
  destruct (N.ltb_spec c 128) as [L|L]; [cbn [List.last]; destruct (N.ltb_spec c 192); [reflexivity|lia]|].
  assert (G : (if c <? 192 then c else 128 + c mod 64) = 128 + c mod 64).
  { destruct (N.ltb_spec c 192); [|reflexivity]. assert (E : c mod 64 = c - 128); [|lia].
    symmetry. apply (N.mod_unique c 64 2); lia. }
  rewrite G. destruct (c <? 2048); [reflexivity|]. destruct (c <? 65536); reflexivity.
Qed.
Lemma high_no_unit c : 128 <= c -> unit_of c = None /\ is_digit c = false.
Proof.
  intros H. split; [|unfold is_digit; lia]. destruct (unit_of c) as [m|] eqn:E; [|reflexivity].
  apply unit_power in E as (k & P & _). apply power_low in P. lia.
Qed.
Lemma digit_no_power c : 48 <= c <= 57 -> unit_of c = None.
Proof. intros H. apply digit_unit. unfold is_digit. lia. Qed.
Lemma size_text_parse s v : size_text s v -> parse_size s = if v <=? u64_max then Ok v else Panic.
Proof.
  intros [t n Hc|t n us u k Hc Hus Hu|t n c j Hc Hd Hp Hl].
  - destruct (count_last _ _ Hc) as (t' & c & -> & Hd). unfold parse_size. rewrite last_byte_is.
    replace (c <? 192) with true by lia. rewrite (digit_no_power c Hd). replace (is_digit c) with true by (unfold is_digit; lia).
    rewrite (proj2 (count_parse _ _) Hc). pose proof (count_max _ _ Hc). replace (n <=? u64_max) with true by lia. reflexivity.
  - unfold parse_size. rewrite app_assoc, last_byte_is. pose proof (power_low _ _ Hu) as Lu. replace (u <? 192) with true by lia.
    rewrite (proj2 (unit_power u (1024 ^ k)) (ex_intro _ k (conj Hu eq_refl))). rewrite <- app_assoc.
    rewrite trim_end_is.
    + rewrite (proj2 (count_parse _ _) Hc). reflexivity.
    + destruct (count_last _ _ Hc) as (t' & c & -> & Hd). exists t', c. split; [reflexivity|]. unfold is_unit. rewrite (digit_no_power c Hd). reflexivity.
    + rewrite forallb_app. apply andb_true_iff. split.
      * apply forallb_forall. intros c Hi. apply is_unit_power. exact (Hus c Hi).
      * cbn [forallb]. rewrite (proj2 (is_unit_power u)) by (exists k; exact Hu). reflexivity.
  - assert (E : t ++ repeat c (S j) = (t ++ repeat c j) ++ [c]).
    { rewrite <- app_assoc. f_equal. change [c] with (repeat c 1). rewrite <- repeat_app. f_equal. lia. }
    unfold parse_size. rewrite E, last_byte_is, <- E. replace (c <? 192) with true by lia.
    rewrite (proj2 (unit_none c) Hp). replace (is_digit c) with false by (unfold is_digit; lia).
    rewrite trim_end_is.
    + rewrite (proj2 (count_parse _ _) Hc). pose proof (count_max _ _ Hc). replace (n <=? u64_max) with true by lia. reflexivity.
    + destruct (count_last _ _ Hc) as (t' & d & -> & Hd'). exists t', d. split; [reflexivity|]. apply N.eqb_neq. lia.
    + apply forallb_forall. intros x Hx. apply repeat_spec in Hx. subst. apply N.eqb_refl.
Qed.
Lemma all_same c b : forallb (fun x => x =? c) b = true -> b = repeat c (length b).
Proof.
  induction b as [|x b IH]; cbn; [reflexivity|]. intros H. apply andb_true_iff in H as [H1 H2].
  apply N.eqb_eq in H1. subst. rewrite <- IH by exact H2. reflexivity.
Qed.
Lemma parse_size_text s : match parse_size s with
  | Ok v => size_text s v /\ v <= u64_max
  | Panic => exists v, size_text s v /\ u64_max < v
  | Err _ => True end.
Proof.
  destruct s as [|c0 s0] using rev_ind; [exact I|]. clear IHs0. rename s0 into s, c0 into c.
  unfold parse_size. rewrite last_byte_is.
  set (b := if c <? 192 then c else 128 + c mod 64).
  destruct (unit_of b) as [m|] eqn:Eb.
  - assert (Hb : b = c).
    { unfold b in *. destruct (c <? 192); [reflexivity|]. rewrite (proj1 (high_no_unit (128 + c mod 64) ltac:(lia))) in Eb. discriminate. }
    rewrite Hb in Eb. apply unit_power in Eb as (k & P & ->).
    destruct (trim_end_split is_unit (s ++ [c])) as (r & Er & F & _).
    destruct (parse_uint u64_max (trim_end_p is_unit (s ++ [c]))) as [n|] eqn:En; [|exact I].
    apply count_parse in En.
    assert (G : size_text (s ++ [c]) (n * 1024 ^ k)).
    { destruct r as [|x r] using rev_ind.
      - rewrite app_nil_r in Er. rewrite <- Er in En. destruct (count_last _ _ En) as (t' & d & E' & Hd).
        apply app_inj_tail in E' as [_ ->]. exfalso. exact (proj1 (unit_none d) (digit_no_power d Hd) k P).
      - clear IHr. rewrite app_assoc in Er. apply app_inj_tail in Er as [Es <-]. 
        rewrite forallb_app in F. apply andb_true_iff in F as [F _].
        rewrite Es, <- app_assoc. apply size_unit; [exact En| |exact P].
        intros y Hy. apply is_unit_power. rewrite forallb_forall in F. exact (F y Hy). }
    destruct (N.leb_spec (n * 1024 ^ k) u64_max); [split; [exact G|assumption]|exists (n * 1024 ^ k); auto].
  - destruct (is_digit b) eqn:Ed.
    + destruct (parse_uint u64_max (s ++ [c])) as [n|] eqn:En; [|exact I]. apply count_parse in En.
      split; [apply size_plain; exact En|exact (count_max _ _ En)].
    + destruct (trim_end_split (fun x => x =? b) (s ++ [c])) as (r & Er & F & _).
      destruct (parse_uint u64_max (trim_end_p _ (s ++ [c]))) as [n|] eqn:En; [|exact I]. apply count_parse in En.
      split; [|exact (count_max _ _ En)].
      destruct r as [|x r] using rev_ind.
      * rewrite app_nil_r in Er. rewrite <- Er in En. apply size_plain. exact En.
      * clear IHr. pose proof F as F'. rewrite forallb_app in F'. apply andb_true_iff in F' as [_ F']. cbn [forallb] in F'.
        rewrite andb_true_r in F'. apply N.eqb_eq in F'. subst x.
        assert (Hb : c = b). { rewrite app_assoc in Er. apply app_inj_tail in Er as [_ E]. exact E. }
        apply all_same in F. rewrite app_length, Nat.add_comm in F. cbn [length plus] in F. rewrite F in Er. rewrite Er.
        apply size_other; [exact En|unfold is_digit in Ed; lia|apply unit_none; exact Eb|].
        rewrite <- Hb. unfold b in Hb. destruct (N.ltb_spec c 192); [assumption|].
        pose proof (N.mod_lt c 64 ltac:(lia)). lia.
Qed.

(* ---- durations ---------------------------------------------------------------------- *)
Lemma ends_true s e : ends_with e s = true <-> ends s e.
Proof. apply ends_with_true. Qed.
Lemma ends_false s e : ends_with e s = false <-> ~ ends s e.
Proof. rewrite <- ends_true. destruct (ends_with e s); split; congruence. Qed.
Lemma concat_snoc (e : text) j : List.concat (repeat e (S j)) = List.concat (repeat e j) ++ e.
Proof.
  replace (S j) with (j + 1)%nat by lia. rewrite repeat_app, concat_app. cbn [repeat List.concat]. rewrite app_nil_r. reflexivity.
Qed.
Lemma without_trim s e x : e <> [] -> without s e x <-> x = trim_end_str e s.
Proof.
  intros He. unfold without, trim_end_str.
  assert (G : forall f s, (length s <= f)%nat -> (exists j, s = x ++ List.concat (repeat e j) /\ ~ ends x e) <-> x = trim_end_fuel f e s).
  { clear s. induction f as [|f IH]; intros s Hf.
    - destruct s; [|cbn in Hf; lia]. cbn [trim_end_fuel]. split.
      + intros (j & E & _). symmetry in E. apply app_eq_nil in E as [E _]. exact E.
      + intros ->. exists 0%nat. split; [reflexivity|]. intros (y & E). symmetry in E. apply app_eq_nil in E as [_ E]. contradiction.
    - cbn [trim_end_fuel]. destruct (strip_suffix e s) as [r|] eqn:Es.
      + apply strip_suffix_some in Es. subst s. assert (Hl : (0 < length e)%nat) by (destruct e; [contradiction|cbn; lia]).
        rewrite app_length in Hf. rewrite <- (IH r) by lia. split.
        * intros ([|j] & E & N0).
          -- cbn [repeat List.concat] in E. rewrite app_nil_r in E. exfalso. apply N0. exists r. symmetry. exact E.
          -- exists j. rewrite concat_snoc, app_assoc in E. apply app_inv_tail in E. auto.
        * intros (j & -> & N0). exists (S j). rewrite concat_snoc, app_assoc. auto.
      + apply strip_suffix_none in Es. split.
        * intros ([|j] & E & N0); [cbn [repeat List.concat] in E; rewrite app_nil_r in E; auto|].
          exfalso. apply Es. exists (x ++ List.concat (repeat e j)). rewrite E, concat_snoc, app_assoc. reflexivity.
        * intros ->. exists 0%nat. cbn [repeat List.concat]. rewrite app_nil_r. auto. }
  split.
  - intros [[E _]|[_ H]]; [contradiction|]. apply G; [lia|exact H].
  - intros H. right. split; [exact He|]. apply (G (length s)); [lia|exact H].
Qed.
Lemma amount_or_one x n : amount x n <-> n = or_one (parse_uint u64_max x).
Proof.
  unfold amount. destruct (parse_uint u64_max x) as [m|] eqn:E; cbn [or_one].
  - apply count_parse in E. split.
    + intros [H|[_ H]]; [exact (count_fun _ _ _ H E)|destruct (H m E)].
    + intros ->. left. exact E.
  - assert (G : forall m, ~ count x m) by (intros m H; apply count_parse in H; congruence). split.
    + intros [H|[H _]]; [destruct (G n H)|exact H].
    + intros ->. right. auto.
Qed.
(* two endings with different last letters *)
Lemma ends_letter s a b x y : ends s (a ++ [x]) -> ends s (b ++ [y]) -> x = y.
Proof.
  intros (p & ->) (q & E). rewrite !app_assoc in E. apply app_inj_tail in E as [_ E]. exact E.
Qed.
Definition dur_unit (s : text) : dunit :=
  if ends_with (txt "ms") s then Ms else if ends_with (txt "h") s then Hour else if ends_with (txt "min") s then Minute
  else if ends_with (txt "s") s then Sec else Bare.
Lemma in_unit_is s u : in_unit s u <-> u = dur_unit s.
Proof.
  unfold dur_unit.
  assert (MS : ends s (txt "ms") -> ends s (txt "s")) by (intros (x & ->); exists (x ++ txt "m"); rewrite <- app_assoc; reflexivity).
  assert (D1 : ends s (txt "h") -> ends s (txt "s") -> False) by (intros A B; discriminate (ends_letter s [] [] _ _ A B)).
  assert (D2 : ends s (txt "min") -> ends s (txt "s") -> False) by (intros A B; discriminate (ends_letter s (txt "mi") [] _ _ A B)).
  assert (D3 : ends s (txt "h") -> ends s (txt "min") -> False) by (intros A B; discriminate (ends_letter s [] (txt "mi") _ _ A B)).
  destruct (ends_with (txt "ms") s) eqn:E1; [apply ends_true in E1|apply ends_false in E1];
  (destruct (ends_with (txt "h") s) eqn:E2; [apply ends_true in E2|apply ends_false in E2]);
  (destruct (ends_with (txt "min") s) eqn:E3; [apply ends_true in E3|apply ends_false in E3]);
  (destruct (ends_with (txt "s") s) eqn:E4; [apply ends_true in E4|apply ends_false in E4]);
  destruct u; cbn [in_unit ending]; try tauto; split; intros H; try discriminate H; try tauto; try (exfalso; tauto); try reflexivity.
Qed.
Lemma without_bare s x : without s [] x <-> x = s.
Proof. unfold without. split; [intros [[_ H]|[H _]]; [exact H|contradiction]|intros ->; left; auto]. Qed.
Lemma dur_text_is s u n : dur_text s u n <-> s <> [] /\ u = dur_unit s /\
  n = or_one (parse_uint u64_max (match u with Bare => s | u => trim_end_str (ending u) s end)).
Proof.
  unfold dur_text. rewrite in_unit_is. split; intros (A & B & C); (split; [exact A|]; split; [exact B|]).
  - destruct C as (x & W & M). apply amount_or_one in M. rewrite M. destruct u; cbn [ending] in *;
      try (apply without_trim in W; [rewrite W; reflexivity|discriminate]). apply without_bare in W. rewrite W. reflexivity.
  - exists (match u with Bare => s | u => trim_end_str (ending u) s end). split; [|apply amount_or_one; exact C].
    destruct u; try (apply without_trim; [discriminate|reflexivity]). apply without_bare. reflexivity.
Qed.
Lemma dur_parse s u n : dur_text s u n -> parse_dur s = if product u n <=? u64_max then Ok (nanoseconds u n) else Panic.
Proof.
  intros H. apply dur_text_is in H as (Hs & Hu & Hn). unfold parse_dur. destruct s as [|c s]; [contradiction|].
  remember (c :: s) as t eqn:Et. clear Et Hs. unfold dur_unit in Hu.
  assert (B : forall x, or_one (parse_uint u64_max x) <= u64_max).
  { intros x. destruct (parse_uint u64_max x) as [m|] eqn:E; cbn [or_one]; [apply count_parse in E; exact (count_max _ _ E)|unfold u64_max; lia]. }
  destruct (ends_with (txt "ms") t); [subst u; cbn [ending product nanoseconds] in *; unfold times; rewrite <- Hn; destruct (n * 1000000 <=? u64_max); reflexivity|].
  destruct (ends_with (txt "h") t); [subst u; cbn [ending product nanoseconds] in *; unfold times; rewrite <- Hn; destruct (n * 3600 <=? u64_max); reflexivity|].
  destruct (ends_with (txt "min") t); [subst u; cbn [ending product nanoseconds] in *; unfold times; rewrite <- Hn; destruct (n * 60 <=? u64_max); reflexivity|].
  destruct (ends_with (txt "s") t); subst u; cbn [ending product nanoseconds] in *; rewrite <- Hn;
    (replace (n <=? u64_max) with true by (rewrite Hn; symmetry; apply N.leb_le; apply B)); reflexivity.
Qed.
Lemma dur_total s : s <> [] -> exists u n, dur_text s u n.
Proof. intros H. eexists _, _. apply dur_text_is. split; [exact H|]. split; reflexivity. Qed.
Lemma dur_fun s u n u' n' : dur_text s u n -> dur_text s u' n' -> u = u' /\ n = n'.
Proof.
  intros A B. apply dur_text_is in A as (_ & A1 & A2). apply dur_text_is in B as (_ & B1 & B2).
  rewrite <- B1 in A1. rewrite A1 in *. split; [reflexivity|]. congruence.
Qed.

(* ---- header rules ------------------------------------------------------------------- *)
Lemma plain_bare c : is_plain c = true <-> bare c.
Proof.
  unfold is_plain, bare, quote. destruct (is_ws c); cbn [negb andb]; [split; [discriminate|intros [H _]; discriminate]|].
  destruct (N.eqb_spec c 39); destruct (N.eqb_spec c 34); cbn; split; try discriminate; try (intros [_ H]; exfalso; apply H; tauto).
  intros _. split; [reflexivity|]. intros [E|E]; contradiction.
  reflexivity.
Qed.
Lemma plain_not_bare c : is_plain c = false <-> ~ bare c.
Proof. rewrite <- plain_bare. destruct (is_plain c); split; congruence. Qed.
Lemma quote_ws q : quote q -> is_ws q = false.
Proof. intros [->| ->]; reflexivity. Qed.
Lemma quote_plain q : quote q -> is_plain q = false.
Proof. intros [->| ->]; reflexivity. Qed.
Lemma quote_bool q : quote q -> (q =? 34) || (q =? 39) = true.
Proof. intros [->| ->]; reflexivity. Qed.
Lemma span_stop q w r : ~ In q w -> span (fun x => negb (x =? q)) (w ++ q :: r) = (w, q :: r).
Proof.
  intros H. apply span_all; [|rewrite N.eqb_refl; reflexivity]. apply forallb_forall. intros x Hx.
  destruct (N.eqb_spec x q) as [->|]; [contradiction|reflexivity].
Qed.
Lemma span_none q s : ~ In q s -> span (fun x => negb (x =? q)) s = (s, []).
Proof.
  intros H. rewrite <- (app_nil_r s) at 1. apply span_all; [|exact I]. apply forallb_forall. intros x Hx.
  destruct (N.eqb_spec x q) as [->|]; [contradiction|reflexivity].
Qed.
Lemma words_split s ws : line_words s ws -> split_by_whitespace s = ws.
Proof.
  induction 1 as [|c s ws Hc _ IH|w s ws Hw Hf Hh _ IH|q w s ws Hq Hi _ IH|q s ws Hq Hi _ IH].
  - reflexivity.
  - rewrite split_blank by exact Hc. exact IH.
  - rewrite split_word; [rewrite IH; reflexivity| |destruct s as [|c s]; [exact I|apply plain_not_bare; exact Hh]].
    unfold plain. destruct w; [contradiction|]. apply forallb_forall. intros x Hx. apply plain_bare. rewrite Forall_forall in Hf. exact (Hf x Hx).
  - unfold split_by_whitespace. cbn [length tokens]. rewrite (quote_plain q Hq), (quote_bool q Hq), span_stop by exact Hi. f_equal.
    rewrite <- IH. apply tokens_fuel; rewrite ?app_length; cbn [length]; lia.
  - unfold split_by_whitespace. cbn [length tokens]. rewrite (quote_plain q Hq), (quote_bool q Hq), span_none by exact Hi. exact IH.
Qed.
Lemma span_parts p s : forall a b, span p s = (a, b) -> s = a ++ b /\ forallb p a = true /\ match b with c :: _ => p c = false | [] => True end.
Proof.
  induction s as [|c s IH]; intros a b; cbn [span].
  - intros E. injection E as <- <-. auto.
  - destruct (p c) eqn:Ec.
    + destruct (span p s) as [a0 b0]. intros E. injection E as <- <-. destruct (IH _ _ eq_refl) as (A & B & C).
      cbn [app forallb]. rewrite Ec, <- A, B. auto.
    + intros E. injection E as <- <-. cbn [app forallb]. auto.
Qed.
Lemma words_total n : forall s, (length s <= n)%nat -> exists ws, line_words s ws.
Proof.
  induction n as [|n IH]; intros s Hn; (destruct s as [|c s]; [exists []; constructor|cbn in Hn]); [lia|].
  destruct (is_plain c) eqn:Ec.
  - destruct (span is_plain s) as [a b] eqn:Es. destruct (span_parts _ _ _ _ Es) as (A & B & C).
    destruct (IH b) as (ws & W); [rewrite A, app_length in Hn; lia|]. exists ((c :: a) :: ws). rewrite A. change (c :: a ++ b) with ((c :: a) ++ b).
    apply words_bare; [discriminate| |destruct b; [exact I|apply plain_not_bare; exact C]|exact W].
    constructor; [apply plain_bare; exact Ec|]. apply Forall_forall. intros x Hx. apply plain_bare. rewrite forallb_forall in B. exact (B x Hx).
  - destruct (is_ws c) eqn:Ew; [destruct (IH s ltac:(lia)) as (ws & W); exists ws; apply words_blank; assumption|].
    assert (Hq : quote c).
    { unfold is_plain in Ec. rewrite Ew in Ec. cbn [negb andb] in Ec. unfold quote.
      destruct (N.eqb_spec c 39); [tauto|]. destruct (N.eqb_spec c 34); [tauto|]. discriminate Ec. }
    destruct (in_dec N.eq_dec c s) as [Hi|Hi].
    + destruct (span (fun x => negb (x =? c)) s) as [a b] eqn:Es. destruct (span_parts _ _ _ _ Es) as (A & B & C).
      assert (Na : ~ In c a). { intros H. rewrite forallb_forall in B. specialize (B c H). rewrite N.eqb_refl in B. discriminate. }
      destruct b as [|x b]; [rewrite app_nil_r in A; subst; contradiction|].
      assert (x = c) by (apply N.eqb_eq; destruct (x =? c); [reflexivity|discriminate C]). subst x.
      destruct (IH b) as (ws & W); [rewrite A, app_length in Hn; cbn in Hn; lia|]. exists (a :: ws). rewrite A. apply words_quoted; assumption.
    + destruct (IH s ltac:(lia)) as (ws & W). exists ws. apply words_stray; assumption.
Qed.
Lemma words_iff s ws : line_words s ws <-> split_by_whitespace s = ws.
Proof.
  split; [apply words_split|]. intros H. destruct (words_total (length s) s ltac:(lia)) as (ws' & W).
  pose proof (words_split _ _ W) as E. congruence.
Qed.
Lemma stands_oper w o : stands w o <-> o = parse_oper w.
Proof.
  assert (G : forall o', In (w, o') operators <-> parse_oper w = o' /\ (w = txt "+" \/ w = txt "-" \/ w = txt "?")).
  { intros o'. unfold operators. split.
    - cbn [In]. intros [H|[H|[H|[]]]]; injection H as <- <-; (split; [reflexivity|tauto]).
    - intros [<- [->|[->| ->]]]; vm_compute; tauto. }
  unfold stands. split.
  - intros [H|[-> H]]; [apply G in H as [H _]; auto|].
    unfold parse_oper. destruct (leqb w [43]) eqn:E1; [apply leqb_ok in E1; subst w; exfalso; apply (H OAdd); apply G; split; [reflexivity|tauto]|].
    destruct (leqb w [45]) eqn:E2; [apply leqb_ok in E2; subst w; exfalso; apply (H ODel); apply G; split; [reflexivity|tauto]|].
    destruct (leqb w [63]) eqn:E3; [apply leqb_ok in E3; subst w; exfalso; apply (H ODefault); apply G; split; [reflexivity|tauto]|].
    reflexivity.
  - intros ->. unfold parse_oper. destruct (leqb w [43]) eqn:E1; [apply leqb_ok in E1; subst w; left; vm_compute; tauto|].
    destruct (leqb w [45]) eqn:E2; [apply leqb_ok in E2; subst w; left; vm_compute; tauto|].
    destruct (leqb w [63]) eqn:E3; [apply leqb_ok in E3; subst w; left; vm_compute; tauto|].
    right. split; [reflexivity|]. intros o' H. apply G in H as [_ [->|[->| ->]]]; discriminate.
Qed.
Lemma leqb_no a b : leqb a b = false -> a <> b.
Proof. intros H ->. rewrite (proj2 (leqb_ok b b) eq_refl) in H. discriminate. Qed.
Lemma leqb_yes (a : text) : leqb a a = true.
Proof. apply leqb_ok. reflexivity. Qed.
Lemma leqb_not (a b : text) : a <> b -> leqb a b = false.
Proof. intros H. destruct (leqb a b) eqn:E; [apply leqb_ok in E; contradiction|reflexivity]. Qed.
Lemma header_exact s h : parse_header s = Ok h <-> exists ws, line_words s ws /\ rule_words ws h.
Proof.
  split.
  - intros H. exists (split_by_whitespace s). split; [apply words_iff; reflexivity|]. unfold parse_header in H. destruct s as [|c s]; [discriminate H|].
    destruct (split_by_whitespace (c :: s)) as [|a [|b [|d [|e [|f l]]]]]; try discriminate H.
    + destruct (leqb a [45]) eqn:E.
      * injection H as <-. apply leqb_ok in E. subst a. apply rule_delete.
      * injection H as <-. apply rule_two. exact (leqb_no _ _ E).
    + destruct (leqb a (txt "proxy")) eqn:E.
      * injection H as <-. apply leqb_ok in E. subst a. apply rule_proxy3.
      * injection H as <-. apply rule_three; [exact (leqb_no _ _ E)|apply stands_oper; reflexivity].
    + destruct (leqb a (txt "proxy")) eqn:E; [|discriminate H].
      injection H as <-. apply leqb_ok in E. subst a. apply rule_proxy4. apply stands_oper. reflexivity.
  - intros (ws & W & R). apply words_iff in W. unfold parse_header. destruct s as [|c s]; [rewrite split_nil in W; subst ws; inversion R|].
    rewrite W. destruct R as [w o k v Ho|k v|w o k v Hw Ho|k|k v Hk]; try (apply stands_oper in Ho; subst o).
    + rewrite leqb_yes. reflexivity.
    + rewrite leqb_yes. reflexivity.
    + rewrite (leqb_not w _ Hw). reflexivity.
    + reflexivity.
    + rewrite (leqb_not k [45] Hk). reflexivity.
Qed.
Lemma header_crash s : parse_header s = Panic <-> s <> [] /\ line_words s [].
Proof. rewrite parse_header_panic, words_iff. reflexivity. Qed.

(* how often a character occurs *)
Lemma occ_app c (a b : text) : count_occ N.eq_dec (a ++ b) c = (count_occ N.eq_dec a c + count_occ N.eq_dec b c)%nat.
Proof. apply count_occ_app. Qed.
Lemma no_words s : line_words s [] <->
  (forall c, In c s -> is_ws c = true \/ quote c) /\ (forall q, quote q -> (count_occ N.eq_dec s q <= 1)%nat).
Proof.
  split.
  - remember [] as ws eqn:E. intros H. revert E. induction H as [|c s ws Hc H IH|w s ws Hw Hf Hh H IH|q w s ws Hq Hi H IH|q s ws Hq Hi H IH]; intros E; try discriminate E.
    + split; [intros c []|]. intros q _. cbn. lia.
    + destruct (IH E) as [A B]. split.
      * intros x [<-|Hx]; [left; exact Hc|exact (A x Hx)].
      * intros q Hq. cbn [count_occ]. destruct (N.eq_dec c q) as [->|]; [rewrite (quote_ws q Hq) in Hc; discriminate|exact (B q Hq)].
    + destruct (IH E) as [A B]. split.
      * intros x [<-|Hx]; [right; exact Hq|exact (A x Hx)].
      * intros p Hp. cbn [count_occ]. destruct (N.eq_dec q p) as [->|]; [|exact (B p Hp)].
        rewrite (proj1 (count_occ_not_In N.eq_dec s p) Hi). lia.
  - induction s as [|c s IH]; intros [A B]; [constructor|].
    assert (W : line_words s []).
    { apply IH. split; [intros x Hx; apply A; right; exact Hx|]. intros q Hq. specialize (B q Hq). cbn [count_occ] in B. destruct (N.eq_dec c q); lia. }
    destruct (A c (or_introl eq_refl)) as [Hc|Hq]; [apply words_blank; assumption|]. apply words_stray; [exact Hq| |exact W].
    specialize (B c Hq). cbn [count_occ] in B. destruct (N.eq_dec c c); [|contradiction].
    apply (count_occ_not_In N.eq_dec). lia.
Qed.
