(* Writers: what reaches the underlying writer. *)
From Coq Require Import String.
From Verif Require Import Base Text TextOps LogModel LogSpec.
Open Scope N_scope.

(* ---- byte level: the output a writer will end with ---- *)
Fixpoint bchars (l : list item) : N := match l with [] => 0 | IB b :: l' => (if boundary b then 1 else 0) + bchars l' | IS _ :: l' => bchars l' end.
Definition styles (l : list item) : list item := filter (fun i => match i with IB _ => false | IS _ => true end) l.
Fixpoint trunc (r : N) (l : list item) : list item :=
  match l with
  | [] => []
  | IS s :: l' => IS s :: trunc r l'
  | IB b :: l' => if boundary b then if r =? 0 then styles l' else IB b :: trunc (r - 1) l' else IB b :: trunc r l'
  end.
Definition fillb (f k : N) : list item := List.concat (repeat (ib (utf8_char f)) (N.to_nat k)).
Definition unbuf (b : list bout) : list item := flat_map (fun o => match o with BData d => ib d | BStyle s => [IS s] end) b.
(* l: what is still written to w before its layer is finished; rest: what is then written
   to the layers below, each before it is finished *)
Fixpoint sem (w : writer) (l : list item) (rest : list (list item)) : list item :=
  match w with
  | Base out _ => out ++ l
  | MaxW r w => sem w (trunc r l ++ hd [] rest) (tl rest)
  | LeftW f t w => sem w ((l ++ fillb f (t - bchars l)) ++ hd [] rest) (tl rest)
  | RightW f t w b => sem w ((fillb f (t - bchars l) ++ unbuf b ++ l) ++ hd [] rest) (tl rest)
  end.
(* the first byte, if any, begins a character *)
Fixpoint starts (l : list item) : Prop := match l with [] => True | IS _ :: l' => starts l' | IB b :: _ => boundary b = true end.

Lemma bchars_app a b : bchars (a ++ b) = bchars a + bchars b.
Proof. induction a as [|[x|s] a IH]; cbn [app bchars]; try rewrite IH; lia. Qed.
Lemma bchars_ib b : bchars (ib b) = char_starts b.
Proof. induction b as [|x b IH]; cbn [ib map bchars char_starts]; [reflexivity|]. unfold ib in IH. rewrite IH. lia. Qed.
Lemma char_starts_app a b : char_starts (a ++ b) = char_starts a + char_starts b.
Proof. induction a as [|x a IH]; cbn [app char_starts]; [reflexivity|]. rewrite IH. lia. Qed.
Lemma ib_app a b : ib (a ++ b) = ib a ++ ib b. Proof. apply map_app. Qed.
Lemma styles_app a b : styles (a ++ b) = styles a ++ styles b. Proof. apply filter_app. Qed.
Lemma styles_ib b : styles (ib b) = []. Proof. induction b as [|x b IH]; [reflexivity|exact IH]. Qed.
Lemma styles_styles l : styles (styles l) = styles l. Proof. induction l as [|[b|s] l IH]; [reflexivity|exact IH|cbn; f_equal; exact IH]. Qed.
Lemma starts_styles l : starts (styles l). Proof. induction l as [|[b|s] l IH]; [exact I|exact IH|exact IH]. Qed.
Lemma bchars_styles l : bchars (styles l) = 0. Proof. induction l as [|[b|s] l IH]; [reflexivity|exact IH|exact IH]. Qed.
Lemma trunc_styles r l : trunc r (styles l) = styles l. Proof. induction l as [|[b|s] l IH]; [reflexivity|exact IH|cbn; f_equal; exact IH]. Qed.
Lemma styles_trunc r l : styles (trunc r l) = styles l.
Proof.
  revert r; induction l as [|[b|s] l IH]; intro r; cbn; [reflexivity| |f_equal; apply IH]. destruct (boundary b); [destruct (r =? 0)|]; cbn; [apply styles_styles|apply IH|apply IH].
Qed.
Lemma trunc0 l : starts l -> trunc 0 l = styles l.
Proof. induction l as [|[b|s] l IH]; cbn; intro H; [reflexivity|rewrite H; reflexivity|f_equal; auto]. Qed.
Lemma starts_trunc r l : starts l -> starts (trunc r l).
Proof. revert r; induction l as [|[b|s] l IH]; intros r; cbn; intro H; [exact I| |apply IH; exact H]. rewrite H. destruct (r =? 0); [apply starts_styles|exact H]. Qed.
Lemma starts_app a b : starts a -> starts b -> starts (a ++ b).
Proof. induction a as [|[x|s] a IH]; cbn; auto. Qed.
Lemma utf8_starts c : exists b l, utf8_char c = b :: l /\ boundary b = true /\ forallb (fun x => negb (boundary x)) l = true.
Proof.
  assert (K : forall x, negb (boundary (0x80 + x mod 64)) = true).
  { intro x. assert (x mod 64 < 64) by (apply N.mod_lt; lia). unfold boundary. apply negb_true_iff, orb_false_iff. split; [apply N.ltb_ge; lia|apply N.leb_gt; lia]. }
  assert (L : forall x y, 0xC0 <= x -> boundary (x + y) = true) by (intros x y X; unfold boundary; apply orb_true_iff; right; apply N.leb_le; lia).
  unfold utf8_char. destruct (c <? 0x80) eqn:A; [|destruct (c <? 0x800) eqn:B; [|destruct (c <? 0x10000) eqn:D]]; eexists _, _; (split; [reflexivity|]).
  - split; [|reflexivity]. unfold boundary. rewrite A. reflexivity.
  - split; [apply L; lia|]. cbn [forallb]. rewrite K. reflexivity.
  - split; [apply L; lia|]. cbn [forallb]. rewrite !K. reflexivity.
  - split; [apply L; lia|]. cbn [forallb]. rewrite !K. reflexivity.
Qed.
Lemma starts_ibutf8 t l : starts l -> starts (ib (utf8 t) ++ l).
Proof. intro H. destruct t as [|c t]; [exact H|]. cbn [utf8 flat_map]. destruct (utf8_starts c) as (b & r & -> & B & _). exact B. Qed.
Lemma starts_fillb f k l : starts l -> starts (fillb f k ++ l).
Proof. intro H. unfold fillb. destruct (N.to_nat k) as [|n]; [exact H|]. cbn [repeat List.concat]. destruct (utf8_starts f) as (b & r & -> & B & _). exact B. Qed.
Lemma starts_fillb' f k : starts (fillb f k). Proof. rewrite <- (app_nil_r (fillb f k)). apply starts_fillb. exact I. Qed.

Lemma trunc_conts l : forall r is, forallb (fun x => negb (boundary x)) l = true -> trunc r (ib l ++ is) = ib l ++ trunc r is.
Proof.
  induction l as [|x l IH]; intros r is H; [reflexivity|]. cbn in H. apply andb_true_iff in H. destruct H as (X & H). apply negb_true_iff in X.
  cbn [ib map app trunc]. rewrite X. f_equal. apply IH. exact H.
Qed.
(* maxscan and trunc *)
Lemma maxscan_spec buf : forall r pre r', maxscan r buf = (pre, r') ->
  exists rest, buf = pre ++ rest /\ char_starts pre + r' = r /\ (rest = [] \/ (r' = 0 /\ starts (ib rest))) /\ forall is, starts is -> trunc r (ib buf ++ is) = ib pre ++ trunc r' (ib rest ++ is).
Proof.
  induction buf as [|b buf IH]; intros r pre r' H; cbn [maxscan] in H.
  - injection H as <- <-. exists []. split; [reflexivity|]. split; [cbn; lia|]. split; [now left|]. intros is _. reflexivity.
  - destruct (boundary b) eqn:B.
    + destruct (r =? 0) eqn:Z.
      * injection H as <- <-. apply N.eqb_eq in Z. subst r. exists (b :: buf). split; [reflexivity|]. split; [reflexivity|]. split; [right; split; [reflexivity|exact B]|]. intros is _. reflexivity.
      * destruct (maxscan (r - 1) buf) as (p, r1) eqn:M. injection H as <- <-. destruct (IH _ _ _ M) as (rest & E & C & D & T). exists rest. apply N.eqb_neq in Z.
        split; [cbn; congruence|]. split; [cbn [char_starts]; rewrite B; lia|]. split; [exact D|]. intros is S. cbn [ib map app trunc]. rewrite B. apply N.eqb_neq in Z. rewrite Z. f_equal. apply T. exact S.
    + destruct (maxscan r buf) as (p, r1) eqn:M. injection H as <- <-. destruct (IH _ _ _ M) as (rest & E & C & D & T). exists rest.
      split; [cbn; congruence|]. split; [cbn [char_starts]; rewrite B; lia|]. split; [exact D|]. intros is S. cbn [ib map app trunc]. rewrite B. f_equal. apply T. exact S.
Qed.
(* a first part that fits *)
Lemma trunc_split a : forall r is, char_starts a <= r -> trunc r (ib a ++ is) = ib a ++ trunc (r - char_starts a) is.
Proof.
  induction a as [|b a IH]; intros r is H; cbn [char_starts] in *; [cbn; now rewrite N.sub_0_r|]. cbn [ib map app trunc]. change (map IB a) with (ib a). destruct (boundary b) eqn:B.
  - assert (Z : r =? 0 = false) by (apply N.eqb_neq; lia). rewrite Z. f_equal. rewrite (IH (r - 1) is) by lia. f_equal. f_equal. lia.
  - f_equal. rewrite IH by lia. f_equal.
Qed.

Lemma write_len w : forall buf w' n, write w buf = (w', n) -> (n <= length buf)%nat /\ (buf <> [] -> 1 <= n)%nat.
Proof.
  induction w as [out sched|r w IH|f t w IH|f t w IH b]; intros buf w' n H; cbn [write] in H.
  - destruct sched as [|k sched]; apply (f_equal snd) in H; cbn [snd] in H; subst n; (split; [lia|]); intros B; destruct buf as [|x buf]; try congruence; cbn [length]; lia.
  - destruct (maxscan r buf) as (pre, r') eqn:M. destruct (maxscan_spec _ _ _ _ M) as (rest & E & _).
    destruct pre as [|x pre]; [injection H as <- <-; split; [lia|]; intros B; destruct buf; [congruence|cbn; lia]|].
    destruct (write w (x :: pre)) as (w1, k) eqn:W. destruct (IH _ _ _ W) as (A & B). assert (k = n) by (destruct (k =? length (x :: pre))%nat; injection H; auto). subst k.
    split; [rewrite E, app_length; lia|]. intros _. apply B. discriminate.
  - destruct (write w buf) as (w1, k) eqn:W. injection H as <- <-. exact (IH _ _ _ W).
  - injection H as <- <-. split; [lia|]. intros B. destruct buf; [congruence|cbn; lia].
Qed.
Lemma unbuf_last b buf : unbuf (match rev b with BData d :: b' => rev b' ++ [BData (d ++ buf)] | _ => b ++ [BData buf] end) = unbuf b ++ ib buf.
Proof.
  assert (U : forall x y, unbuf (x ++ y) = unbuf x ++ unbuf y) by (intros; apply flat_map_app).
  destruct (rev b) as [|[d|s] b'] eqn:R.
  - rewrite U. cbn. now rewrite app_nil_r.
  - assert (b = rev b' ++ [BData d]) by (rewrite <- (rev_involutive b), R; reflexivity). subst b. rewrite !U. cbn. now rewrite !app_nil_r, ib_app, app_assoc.
  - rewrite U. cbn. now rewrite app_nil_r.
Qed.
Definition allstart (rest : list (list item)) : Prop := Forall starts rest.
Lemma all_hd rest : allstart rest -> starts (hd [] rest). Proof. destruct 1; [exact I|assumption]. Qed.
Lemma all_tl rest : allstart rest -> allstart (tl rest). Proof. destruct 1; [constructor|assumption]. Qed.
(* one call of write *)
Lemma write_sem w : forall buf w' n is rest, starts is -> allstart rest -> write w buf = (w', n) -> sem w (ib buf ++ is) rest = sem w' (ib (skipn n buf) ++ is) rest.
Proof.
  induction w as [out sched|r w IH|f t w IH|f t w IH b]; intros buf w' n is rest0 S SA H; cbn [write] in H.
  - destruct sched as [|k sched]; injection H as <- <-; cbn [sem].
    + rewrite skipn_all. cbn. now rewrite <- app_assoc.
    + set (m := Nat.min _ _). rewrite <- app_assoc. f_equal. rewrite app_assoc. f_equal. rewrite <- ib_app. now rewrite firstn_skipn.
  - destruct (maxscan r buf) as (pre, r') eqn:M. destruct (maxscan_spec _ _ _ _ M) as (rest & E & CS & D & T). cbn [sem]. rewrite T by exact S.
    destruct pre as [|x pre].
    + injection H as <- <-. cbn [app] in E. subst rest. rewrite skipn_all. cbn [ib map app sem]. destruct D as [D|(D & SR)]; [subst buf; cbn [char_starts] in CS; now replace r' with r by lia|]. subst r'. cbn [char_starts] in CS. assert (R0 : r = 0) by lia. clear CS. subst r.
      cbn [ib map app]. rewrite (trunc0 _ S). rewrite trunc0; [|apply starts_app; [exact SR|exact S]]. now rewrite styles_app, styles_ib.
    + destruct (write w (x :: pre)) as (w1, k) eqn:W. destruct (write_len _ _ _ _ W) as (KL & K1).
      assert (S2 : starts (trunc r' (ib rest ++ is) ++ hd [] rest0)).
      { apply starts_app; [|apply all_hd; exact SA]. apply starts_trunc. destruct D as [->|(-> & SR)]; [exact S|]. apply starts_app; assumption. }
      rewrite <- app_assoc. rewrite (IH (x :: pre) w1 k _ _ S2 (all_tl _ SA) W).
      destruct (k =? length (x :: pre))%nat eqn:KE; injection H as <- <-; cbn [sem].
      * apply Nat.eqb_eq in KE. subst k. rewrite E. rewrite skipn_all, skipn_app_exact. reflexivity.
      * f_equal. rewrite E. rewrite skipn_app. replace (k - length (x :: pre))%nat with 0%nat by lia. rewrite skipn_O. rewrite ib_app, <- !app_assoc.
        assert (Q : char_starts (x :: pre) = char_starts (firstn k (x :: pre)) + char_starts (skipn k (x :: pre))) by (rewrite <- char_starts_app, firstn_skipn; reflexivity).
        rewrite (trunc_split (skipn k (x :: pre))) by lia. rewrite <- app_assoc. f_equal. f_equal. f_equal. lia.
  - destruct (write w buf) as (w1, k) eqn:W. injection H as <- <-. cbn [sem].
    rewrite <- !app_assoc. rewrite (IH buf w1 k (is ++ fillb f (t - bchars (ib buf ++ is)) ++ hd [] rest0) (tl rest0)); [|apply starts_app; [exact S|apply starts_fillb, all_hd; exact SA]|apply all_tl; exact SA|exact W].
    f_equal. f_equal. f_equal. f_equal. f_equal. rewrite !bchars_app, !bchars_ib.
    assert (Q : char_starts buf = char_starts (firstn k buf) + char_starts (skipn k buf)) by (rewrite <- char_starts_app, firstn_skipn; reflexivity). lia.
  - injection H as <- <-. cbn [sem]. rewrite skipn_all. cbn [ib map app]. rewrite unbuf_last, bchars_app, bchars_ib, <- !app_assoc. f_equal. f_equal. f_equal. lia.
Qed.
Lemma write_all_sem n : forall w buf is rest, (length buf <= n)%nat -> starts is -> allstart rest -> sem w (ib buf ++ is) rest = sem (write_all_n n w buf) is rest.
Proof.
  induction n as [|n IH]; intros w buf is rest L S SA; destruct buf as [|b buf]; cbn [write_all_n]; try reflexivity; [cbn [length] in L; lia|].
  destruct (write w (b :: buf)) as (w', k) eqn:W. rewrite (write_sem _ _ _ _ _ _ S SA W). destruct (write_len _ _ _ _ W) as (A & B). specialize (B ltac:(discriminate)).
  apply IH; [|exact S|exact SA]. rewrite skipn_length. cbn [length] in *. lia.
Qed.
Lemma write_all_ok w buf is rest : starts is -> allstart rest -> sem w (ib buf ++ is) rest = sem (write_all w buf) is rest.
Proof. intros S SA. apply write_all_sem; [lia|exact S|exact SA]. Qed.
Lemma set_style_ok w : forall s is rest, starts is -> allstart rest -> sem w (IS s :: is) rest = sem (set_style w s) is rest.
Proof.
  induction w as [out sched|r w IH|f t w IH|f t w IH b]; intros s is rest S SA; cbn [sem set_style trunc bchars app].
  - now rewrite <- app_assoc.
  - apply IH; [|apply all_tl; exact SA]. apply starts_app; [apply starts_trunc; exact S|apply all_hd; exact SA].
  - apply IH; [|apply all_tl; exact SA]. apply starts_app; [apply starts_app; [exact S|apply starts_fillb']|apply all_hd; exact SA].
  - f_equal. f_equal. f_equal. unfold unbuf. rewrite flat_map_app. cbn. now rewrite <- app_assoc.
Qed.
Lemma fills_ok f k : forall w is rest, starts is -> allstart rest -> sem w (List.concat (repeat (ib (utf8_char f)) k) ++ is) rest = sem (fills k f w) is rest.
Proof.
  induction k as [|k IH]; intros w is rest S SA; cbn [repeat List.concat fills]; [reflexivity|]. rewrite <- app_assoc, write_all_ok.
  - apply IH; assumption.
  - destruct k as [|k]; [exact S|]. cbn [repeat List.concat]. destruct (utf8_starts f) as (b & r & -> & B & _). exact B.
  - exact SA.
Qed.
(* data inside a RightAlignWriter: every part begins a character *)
Definition good_part (o : bout) : Prop := match o with BData d => starts (ib d) | BStyle _ => True end.
Fixpoint good (w : writer) : Prop := match w with Base _ _ => True | MaxW _ w | LeftW _ _ w => good w | RightW _ _ w b => good w /\ Forall good_part b end.
Lemma unbuf_starts b is : Forall good_part b -> starts is -> starts (unbuf b ++ is).
Proof. intros G S. induction G as [|[d|s] b GO _ IH]; cbn [unbuf flat_map app]; [exact S| |exact IH]. rewrite <- app_assoc. apply starts_app; [exact GO|exact IH]. Qed.
(* leaving a layer *)
Lemma finish_ok w is rest : good w -> starts is -> allstart rest -> (forall out sched, w <> Base out sched) -> sem w [] (is :: rest) = sem (finish w) is rest.
Proof.
  intros G S SA NB. destruct w as [out sched|r w|f t w|f t w b]; cbn [finish sem hd tl trunc bchars app].
  - destruct (NB out sched). reflexivity.
  - reflexivity.
  - rewrite N.sub_0_r. apply fills_ok; assumption.
  - destruct G as (G & GP). rewrite N.sub_0_r, app_nil_r, <- app_assoc.
    assert (K : forall b w, Forall good_part b -> sem w (unbuf b ++ is) rest = sem (fold_left (fun w o => match o with BData d => write_all w d | BStyle s => set_style w s end) b w) is rest).
    { clear - S SA. induction b as [|o b IH]; intros w GP; [reflexivity|]. inversion_clear GP as [|? ? GO GP']. cbn [fold_left unbuf flat_map]. destruct o as [d|s].
      - rewrite <- IH by exact GP'. rewrite <- app_assoc. apply write_all_ok; [apply unbuf_starts; assumption|exact SA].
      - rewrite <- IH by exact GP'. cbn [app]. apply set_style_ok; [apply unbuf_starts; assumption|exact SA]. }
    rewrite <- K by exact GP. apply fills_ok; [apply unbuf_starts; assumption|exact SA].
Qed.

Fixpoint has_right (w : writer) : bool := match w with Base _ _ => false | MaxW _ w | LeftW _ _ w => has_right w | RightW _ _ _ _ => true end.
Lemma good_write w : forall buf w' n, good w -> (has_right w = true -> starts (ib buf)) -> write w buf = (w', n) ->
  good w' /\ has_right w' = has_right w /\ (has_right w = true -> starts (ib (skipn n buf))).
Proof.
  induction w as [out sched|r w IH|f t w IH|f t w IH b]; intros buf w' n G S H; cbn [write] in H.
  - destruct sched as [|k sched]; injection H as <- <-; cbn; (split; [exact I|]; split; [reflexivity|discriminate]).
  - destruct (maxscan r buf) as (pre, r') eqn:M. destruct (maxscan_spec _ _ _ _ M) as (rest & E & CS & D & T). cbn [has_right good] in *.
    destruct pre as [|x pre]; [injection H as <- <-; cbn [good has_right]; rewrite skipn_all; repeat split; auto|].
    destruct (write w (x :: pre)) as (w1, k) eqn:W.
    assert (S1 : has_right w = true -> starts (ib (x :: pre))) by (intro R; specialize (S R); rewrite E in S; exact S).
    destruct (IH _ _ _ G S1 W) as (A & B & C).
    assert (Q : good w' /\ has_right w' = has_right w1 /\ n = k) by (destruct (k =? length (x :: pre))%nat; injection H as <- <-; auto).
    destruct Q as (Q1 & Q2 & ->). split; [exact Q1|]. split; [congruence|]. intro R. specialize (C R). rewrite E. rewrite skipn_app, ib_app. apply starts_app; [exact C|].
    destruct (write_len _ _ _ _ W) as (KL & _). replace (k - length (x :: pre))%nat with 0%nat by lia. rewrite skipn_O. destruct D as [->|(_ & D)]; [exact I|exact D].
  - destruct (write w buf) as (w1, k) eqn:W. injection H as <- <-. cbn [good has_right] in *. exact (IH _ _ _ G S W).
  - injection H as <- <-. cbn [good has_right] in *. destruct G as (G & GP). split; [split; [exact G|]|]. 2:{ split; [reflexivity|]. intros _. now rewrite skipn_all. }
    specialize (S eq_refl). destruct (rev b) as [|[d|s] b'] eqn:R.
    + apply Forall_app. split; [exact GP|]. constructor; [exact S|constructor].
    + assert (b = rev b' ++ [BData d]) by (rewrite <- (rev_involutive b), R; reflexivity). subst b. apply Forall_app in GP. destruct GP as (GP & GD). inversion_clear GD as [|? ? GD' _].
      apply Forall_app. split; [exact GP|]. constructor; [|constructor]. cbn in *. rewrite ib_app. apply starts_app; assumption.
    + apply Forall_app. split; [exact GP|]. constructor; [exact S|constructor].
Qed.
Lemma good_write_all n : forall w buf, good w -> (has_right w = true -> starts (ib buf)) -> good (write_all_n n w buf) /\ has_right (write_all_n n w buf) = has_right w.
Proof.
  induction n as [|n IH]; intros w buf G S; destruct buf as [|b buf]; cbn [write_all_n]; auto.
  destruct (write w (b :: buf)) as (w', k) eqn:W. destruct (good_write _ _ _ _ G S W) as (A & B & C). rewrite <- B. apply IH; [exact A|]. intro R. apply C. congruence.
Qed.
Lemma starts_utf8 t : starts (ib (utf8 t)). Proof. rewrite <- (app_nil_r (ib (utf8 t))). apply starts_ibutf8. exact I. Qed.
Lemma starts_utf8_char c : starts (ib (utf8_char c)). Proof. destruct (utf8_starts c) as (b & l & -> & B & _). exact B. Qed.
Lemma good_wall w t : good w -> good (write_all w (utf8 t)). Proof. intro G. apply good_write_all; [exact G|intros _; apply starts_utf8]. Qed.
Lemma good_set_style w s : good w -> good (set_style w s).
Proof. induction w as [out sched|r w IH|f t w IH|f t w IH b]; cbn; auto. intros (G & GP). split; [exact G|]. apply Forall_app. split; [exact GP|]. constructor; [exact I|constructor]. Qed.
Lemma good_fills k f : forall w, good w -> good (fills k f w).
Proof. induction k as [|k IH]; intros w G; cbn [fills]; [exact G|]. apply IH. apply good_write_all; [exact G|intros _; apply starts_utf8_char]. Qed.
Lemma good_finish w : good w -> good (finish w).
Proof.
  destruct w as [out sched|r w|f t w|f t w b]; cbn [finish good]; auto; [apply good_fills|]. intros (G & GP). apply good_fills with (k := N.to_nat t) (f := f) in G. revert G. generalize (fills (N.to_nat t) f w). clear w.
  induction GP as [|[d|s] b GO _ IH]; intros w G; cbn [fold_left]; [exact G| |]; apply IH; [apply good_write_all; [exact G|intros _; exact GO]|apply good_set_style; exact G].
Qed.
Lemma good_do_write w x : good w -> good (do_write w x).
Proof.
  destruct x as [l|t]; cbn [do_write].
  - revert w; induction l as [|t l IH]; intros w G; cbn [fold_left]; [exact G|]. apply IH. apply good_wall. exact G.
  - intro G. destruct (write w (utf8 t)) as (w', n) eqn:W. apply (good_write _ _ _ _ G (fun _ => starts_utf8 t) W).
Qed.

(* the shape of a writer, and the underlying one *)
Fixpoint shape (w : writer) : list N := match w with Base _ _ => [] | MaxW _ w => 0 :: shape w | LeftW f _ w => 1 :: f :: shape w | RightW f _ w _ => 2 :: f :: shape w end.
Lemma shape_write w : forall buf, shape (fst (write w buf)) = shape w.
Proof.
  induction w as [out sched|r w IH|f t w IH|f t w IH b]; intros buf; cbn [write].
  - destruct sched; reflexivity.
  - destruct (maxscan r buf) as (pre, r'). destruct pre as [|x pre]; [reflexivity|]. specialize (IH (x :: pre)). destruct (write w (x :: pre)) as (w1, k). destruct (k =? length (x :: pre))%nat; cbn in *; congruence.
  - specialize (IH buf). destruct (write w buf). cbn in *. congruence.
  - reflexivity.
Qed.
Lemma shape_wall n : forall w buf, shape (write_all_n n w buf) = shape w.
Proof.
  induction n as [|n IH]; intros w buf; destruct buf as [|b buf]; cbn [write_all_n]; try reflexivity. assert (H := shape_write w (b :: buf)). destruct (write w (b :: buf)) as (w', k). cbn in H. rewrite IH. exact H.
Qed.
Lemma shape_style w s : shape (set_style w s) = shape w.
Proof. induction w; cbn; try congruence. Qed.
Lemma shape_fills k f : forall w, shape (fills k f w) = shape w.
Proof. induction k as [|k IH]; intros w; cbn [fills]; [reflexivity|]. rewrite IH. apply shape_wall. Qed.
Lemma shape_do w x : shape (do_write w x) = shape w.
Proof. destruct x as [l|t]; cbn [do_write]; [|apply shape_write]. revert w; induction l as [|t l IH]; intros w; cbn [fold_left]; [reflexivity|]. rewrite IH. apply shape_wall. Qed.
Lemma shape_finish w : shape (finish w) = match w with Base _ _ => [] | MaxW _ w | LeftW _ _ w | RightW _ _ w _ => shape w end.
Proof.
  destruct w as [out sched|r w|f t w|f t w b]; cbn [finish]; try reflexivity; [apply shape_fills|]. rewrite <- (shape_fills (N.to_nat t) f w). generalize (fills (N.to_nat t) f w). clear w.
  induction b as [|[d|s] b IH]; intros w; cbn [fold_left]; [reflexivity| |]; rewrite IH; [apply shape_wall|apply shape_style].
Qed.

(* ---- one call of write, when the underlying writer takes everything ---- *)
Fixpoint eager (w : writer) : Prop := match w with Base _ s => s = [] | MaxW _ w | LeftW _ _ w | RightW _ _ w _ => eager w end.
Definition dead (w : writer) : Prop := forall is rest, starts is -> allstart rest -> sem w is rest = sem w (styles is) rest.
Lemma write_once w : forall buf w' n, eager w -> write w buf = (w', n) -> eager w' /\ (n = length buf \/ (dead w' /\ starts (ib (skipn n buf)))).
Proof.
  induction w as [out sched|r w IH|f t w IH|f t w IH b]; intros buf w' n E H; cbn [write eager] in *.
  - subst sched. injection H as <- <-. split; [reflexivity|now left].
  - destruct (maxscan r buf) as (pre, r') eqn:M. destruct (maxscan_spec _ _ _ _ M) as (rest & EB & CS & D & T). destruct pre as [|x pre]; [injection H as <- <-; auto|].
    destruct (write w (x :: pre)) as (w1, k) eqn:W. destruct (IH _ _ _ E W) as (E1 & A). destruct (write_len _ _ _ _ W) as (KL & _).
    assert (DD : forall rr, dead w1 -> dead (MaxW rr w1)).
    { intros rr DW is rs S SA. cbn [sem]. rewrite (DW _ _ (starts_app _ _ (starts_trunc rr is S) (all_hd _ SA)) (all_tl _ SA)).
      rewrite trunc_styles. rewrite (DW _ _ (starts_app _ _ (starts_styles is) (all_hd _ SA)) (all_tl _ SA)). now rewrite !styles_app, styles_trunc, styles_styles. }
    destruct (k =? length (x :: pre))%nat eqn:KE; injection H as <- <-; cbn [eager]; (split; [exact E1|]).
    + apply Nat.eqb_eq in KE. subst k. destruct D as [->|(-> & D)]; [left; now rewrite EB, app_nil_r|]. right. split; [|rewrite EB, skipn_app_exact; exact D].
      intros is rs S SA. cbn [sem]. rewrite trunc0 by exact S. now rewrite trunc_styles.
    + apply Nat.eqb_neq in KE. destruct A as [A|(A & B)]; [congruence|]. right. split; [apply DD; exact A|]. rewrite EB, skipn_app, ib_app. apply starts_app; [exact B|]. replace (k - length (x :: pre))%nat with 0%nat by lia. rewrite skipn_O.
      destruct D as [->|(_ & D)]; [exact I|exact D].
  - destruct (write w buf) as (w1, k) eqn:W. injection H as <- <-. destruct (IH _ _ _ E W) as (E1 & A). split; [exact E1|]. destruct A as [A|(A & B)]; [now left|]. right. split; [|exact B].
    intros is rs S SA. cbn [sem]. rewrite (A _ _ (starts_app _ _ (starts_app _ _ S (starts_fillb' _ _)) (all_hd _ SA)) (all_tl _ SA)). rewrite (A ((styles is ++ _) ++ _) _ (starts_app _ _ (starts_app _ _ (starts_styles _) (starts_fillb' _ _)) (all_hd _ SA)) (all_tl _ SA)).
    assert (F : forall g k, styles (fillb g k) = []). { intros g k0. unfold fillb. induction (N.to_nat k0) as [|m IHm]; cbn [repeat List.concat]; [reflexivity|]. now rewrite styles_app, styles_ib, IHm. }
    now rewrite !styles_app, !F, styles_styles.
  - injection H as <- <-. auto.
Qed.
Lemma write_once_ok w t is rest : eager w -> starts is -> allstart rest -> sem w (ib (utf8 t) ++ is) rest = sem (fst (write w (utf8 t))) is rest.
Proof.
  intros E S SA. destruct (write w (utf8 t)) as (w', n) eqn:W. cbn [fst]. rewrite (write_sem _ _ _ _ _ _ S SA W). destruct (write_once _ _ _ _ E W) as (_ & [->|(D & SK)]).
  - now rewrite skipn_all.
  - rewrite (D _ _ (starts_app _ _ SK S) SA), styles_app, styles_ib. cbn [app]. symmetry. apply D; assumption.
Qed.
