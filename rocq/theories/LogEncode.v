(* Encoding writes what the specification says. *)
From Coq Require Import String.
From Verif Require Import Base Text TextOps LogModel LogSpec LogProofs.
Open Scope N_scope.

(* ---- characters and bytes ---- *)
Lemma wire_app a b : wire (a ++ b) = wire a ++ wire b. Proof. apply flat_map_app. Qed.
Lemma wire_chars t : wire (chars_of t) = ib (utf8 t).
Proof. induction t as [|c t IH]; [reflexivity|]. cbn [chars_of map wire flat_map utf8]. rewrite ib_app. f_equal. exact IH. Qed.
Lemma starts_wire l is : starts is -> starts (wire l ++ is).
Proof. intro S. induction l as [|[c|s] l IH]; [exact S| |exact IH]. cbn [wire flat_map]. rewrite <- app_assoc. destruct (utf8_starts c) as (b & r & -> & B & _). exact B. Qed.
Lemma starts_wire' l : starts (wire l). Proof. rewrite <- (app_nil_r (wire l)). apply starts_wire. exact I. Qed.
Lemma cut0_styles l : wire (cut 0 l) = styles (wire l).
Proof. induction l as [|[c|s] l IH]; cbn [cut wire flat_map]; [reflexivity| |]. - cbn. rewrite styles_app, styles_ib. exact IH. - cbn. f_equal. exact IH. Qed.
Lemma trunc_wire l : forall M, trunc M (wire l) = wire (cut M l).
Proof.
  induction l as [|[c|s] l IH]; intros M; cbn [cut wire flat_map]; [reflexivity| |cbn; f_equal; apply IH].
  destruct (utf8_starts c) as (b & r & E & B & R). rewrite E. cbn [ib map app trunc]. change (map IB r) with (ib r). fold (wire l). rewrite B. destruct (M =? 0) eqn:Z.
  - rewrite styles_app, styles_ib, cut0_styles. reflexivity.
  - cbn [wire flat_map]. rewrite E. cbn [ib map app]. f_equal. rewrite trunc_conts by exact R. f_equal. apply IH.
Qed.
Lemma bchars_conts r : forallb (fun x => negb (boundary x)) r = true -> bchars (ib r) = 0.
Proof. induction r as [|x r IH]; [reflexivity|]. cbn [forallb ib map bchars]. intro H. apply andb_true_iff in H. destruct H as (X & H). apply negb_true_iff in X. rewrite X. fold (ib r). rewrite IH by exact H. reflexivity. Qed.
Lemma width_wire l : bchars (wire l) = width l.
Proof.
  induction l as [|[c|s] l IH]; cbn [wire flat_map width]; [reflexivity| |exact IH]. rewrite bchars_app. fold (wire l). rewrite IH. destruct (utf8_starts c) as (b & r & -> & B & R). cbn [ib map bchars]. rewrite B. fold (ib r). rewrite bchars_conts by exact R. lia.
Qed.
Lemma fillb_wire f k : fillb f k = wire (repeat (C f) (N.to_nat k)).
Proof. unfold fillb. induction (N.to_nat k) as [|n IH]; [reflexivity|]. cbn [repeat List.concat wire flat_map]. f_equal. exact IH. Qed.

(* ---- what it means that l has been written ---- *)
Definition after (w : writer) (l : list ch) (w' : writer) : Prop :=
  (forall is rest, starts is -> allstart rest -> sem w (wire l ++ is) rest = sem w' is rest) /\ good w' /\ shape w' = shape w /\ (eager w -> eager w').
Lemma after_nil w : good w -> after w [] w. Proof. intro G. repeat split; auto. Qed.
Lemma after_app w a w1 b w2 : after w a w1 -> after w1 b w2 -> after w (a ++ b) w2.
Proof.
  intros (S1 & G1 & H1 & E1) (S2 & G2 & H2 & E2). repeat split; auto; [|congruence]. intros is rest S SA. rewrite wire_app, <- app_assoc. rewrite S1 by (try apply starts_wire; assumption). apply S2; assumption.
Qed.
Lemma eager_write w : forall buf, eager w -> eager (fst (write w buf)).
Proof. intros buf E. destruct (write w buf) as (w', n) eqn:W. exact (proj1 (write_once _ _ _ _ E W)). Qed.
Lemma eager_wall n : forall w buf, eager w -> eager (write_all_n n w buf).
Proof. induction n as [|n IH]; intros w [|b buf] E; cbn [write_all_n]; auto. assert (H := eager_write w (b :: buf) E). destruct (write w (b :: buf)) as (w', k). apply IH. exact H. Qed.
Lemma eager_style w s : eager w -> eager (set_style w s). Proof. induction w; cbn; auto. Qed.
Lemma eager_fills k f : forall w, eager w -> eager (fills k f w). Proof. induction k as [|k IH]; intros w E; cbn [fills]; [exact E|]. apply IH. apply eager_wall. exact E. Qed.
Lemma eager_finish w : eager w -> eager (finish w).
Proof.
  destruct w as [out sched|r w|f t w|f t w b]; cbn [finish eager]; auto; [apply eager_fills|]. intro E. apply eager_fills with (k := N.to_nat t) (f := f) in E. revert E. generalize (fills (N.to_nat t) f w). clear w.
  induction b as [|[d|s] b IH]; intros w E; cbn [fold_left]; [exact E| |]; apply IH; [apply eager_wall; exact E|apply eager_style; exact E].
Qed.
Lemma after_wall w t : good w -> after w (chars_of t) (write_all w (utf8 t)).
Proof.
  intro G. split; [|split; [|split]].
  - intros is rest S SA. rewrite wire_chars. apply write_all_ok; assumption.
  - apply good_wall. exact G.
  - apply shape_wall.
  - apply eager_wall.
Qed.
Lemma after_style w s : good w -> after w [S_ s] (set_style w s).
Proof.
  intro G. split; [|split; [|split]].
  - intros is rest S SA. cbn. apply set_style_ok; assumption.
  - apply good_set_style. exact G.
  - apply shape_style.
  - apply eager_style.
Qed.
Lemma chars_app a b : chars_of (a ++ b) = chars_of a ++ chars_of b. Proof. apply map_app. Qed.
Lemma after_all l : forall w, good w -> after w (chars_of (List.concat l)) (do_write w (WAll l)).
Proof.
  cbn [do_write]. induction l as [|t l IH]; intros w G; cbn [List.concat fold_left]; [apply after_nil; exact G|]. rewrite chars_app. assert (A := after_wall w t G). eapply after_app; [exact A|]. apply IH. exact (proj1 (proj2 A)).
Qed.
Definition is_once (x : wr) : bool := match x with WAll _ => false | WOnce _ => true end.
Lemma after_wr w x : good w -> (eager w \/ is_once x = false) -> after w (chars_of (wr_text x)) (do_write w x).
Proof.
  intros G E. destruct x as [l|t]; [apply after_all; exact G|]. destruct E as [E|E]; [|discriminate]. cbn [wr_text]. split; [|split; [|split]].
  - intros is rest S SA. rewrite wire_chars. apply write_once_ok; assumption.
  - apply good_do_write. exact G.
  - apply shape_do.
  - intro. apply eager_write. assumption.
Qed.

(* ---- layers ---- *)
Definition layer_of (w1 w : writer) (l : list ch) : option (list ch) :=
  match w1 with
  | MaxW M w0 => Some (cut M l)
  | LeftW f m w0 => Some (pad false f m l)
  | RightW f m w0 [] => Some (pad true f m l)
  | _ => None
  end.
Lemma after_layer w1 w l w2 l' : after w1 l w2 -> layer_of w1 w l = Some l' ->
  match w1 with MaxW _ w0 | LeftW _ _ w0 | RightW _ _ w0 _ => w0 = w | _ => False end -> after w l' (finish w2).
Proof.
  intros (A & G & SH & E) L U.
  assert (NB : forall out sched, w2 <> Base out sched) by (intros out sched ->; destruct w1; cbn in SH; (discriminate || contradiction)).
  split; [|split; [apply good_finish; exact G|split]].
  - intros is rest S SA. rewrite <- (finish_ok w2 is rest G S SA NB). rewrite <- (A [] (is :: rest) I (Forall_cons _ S SA)). rewrite app_nil_r.
    destruct w1 as [out sched|M w0|f m w0|f m w0 [|? ?]]; try contradiction; subst w0; cbn [layer_of] in L; try discriminate; injection L as <-; cbn [sem hd tl].
    + now rewrite trunc_wire.
    + unfold pad. rewrite fillb_wire, width_wire, wire_app, <- app_assoc. reflexivity.
    + unfold pad. rewrite fillb_wire, width_wire, wire_app, <- !app_assoc. reflexivity.
  - rewrite shape_finish. destruct w1 as [out sched|M w0|f m w0|f m w0 b]; try contradiction; subst w0; destruct w2 as [out2 sched2|M2 w3|f2 m2 w3|f2 m2 w3 b2]; cbn in SH; try discriminate; cbn; congruence.
  - intro EW. apply eager_finish. apply E. destruct w1; try contradiction; subst; exact EW.
Qed.
Lemma dress_ok p w fs w1 l w2 : good w -> dress p w = (fs, w1) -> after w1 l w2 -> after w (adjusted p l) (undress fs w2).
Proof.
  intros G D A. unfold dress in D. unfold adjusted. destruct p as [f right mn mx]; cbn [p_fill p_right p_min p_max] in *.
  destruct mn as [m|]; destruct mx as [M|]; [destruct right|destruct right| |]; injection D as <- <-; cbn [undress fold_left].
  - apply (after_layer (MaxW M w) w (pad true f m l) (finish w2)); [|reflexivity|reflexivity]. apply (after_layer (RightW f m (MaxW M w) []) (MaxW M w) l w2); [exact A|reflexivity|reflexivity].
  - apply (after_layer (MaxW M w) w (pad false f m l) (finish w2)); [|reflexivity|reflexivity]. apply (after_layer (LeftW f m (MaxW M w)) (MaxW M w) l w2); [exact A|reflexivity|reflexivity].
  - apply (after_layer (RightW f m w []) w l w2); [exact A|reflexivity|reflexivity].
  - apply (after_layer (LeftW f m w) w l w2); [exact A|reflexivity|reflexivity].
  - apply (after_layer (MaxW M w) w l w2); [exact A|reflexivity|reflexivity].
  - exact A.
Qed.
Lemma dress_good p w fs w1 : good w -> dress p w = (fs, w1) -> good w1 /\ (eager w -> eager w1).
Proof.
  intros G D. unfold dress in D. destruct p as [f right mn mx]; cbn [p_fill p_right p_min p_max] in *.
  destruct mn as [m|]; destruct mx as [M|]; [destruct right|destruct right| |]; injection D as <- <-; cbn; repeat split; auto.
Qed.

(* ---- chunks ---- *)
Section ChunkInd.
  Context (P : chunk -> Prop) (HT : forall t, P (CText t)) (HE : forall e, P (CErr e)) (HF : forall f p, P (CField f p)) (HD : forall f u p, P (CTime f u p))
    (HA : forall l p, Forall P l -> P (CAlign l p)) (HH : forall l p, Forall P l -> P (CHigh l p)).
  Fixpoint chunk_ind2 (c : chunk) : P c :=
    let go := fix go (l : list chunk) : Forall P l := match l with [] => Forall_nil P | c :: l' => Forall_cons c (chunk_ind2 c) (go l') end in
    match c with
    | CText t => HT t | CErr e => HE e | CField f p => HF f p | CTime f u p => HD f u p
    | CAlign l p => HA l p (go l) | CHigh l p => HH l p (go l)
    end.
End ChunkInd.
Section Main.
  Context (now : text -> bool -> option (list text)) (r : record).
  (* no field in the chunk is written by a single call of write *)
  Fixpoint calm (c : chunk) : bool :=
    match c with
    | CField f _ => negb (is_once (field_out r f))
    | CAlign l _ | CHigh l _ => forallb calm l
    | _ => true
    end.
  Definition enc_ok (c : chunk) : Prop := forall w, good w -> (eager w \/ calm c = true) ->
    match encode now r c w, shown now r adjusted c with Some w', Some l => after w l w' | None, None => True | _, _ => False end.
  Lemma seq_ok l : Forall enc_ok l -> forall w, good w -> (eager w \/ forallb calm l = true) ->
    match encode_seq now r l w, shown_all now r adjusted l with Some w', Some l => after w l w' | None, None => True | _, _ => False end.
  Proof.
    induction 1 as [|c l HC HL IH]; intros w G E; cbn [encode_seq shown_all]; [apply after_nil; exact G|].
    assert (E1 : eager w \/ calm c = true) by (destruct E as [E|E]; [now left|right; cbn in E; apply andb_true_iff in E; tauto]).
    specialize (HC w G E1). destruct (encode now r c w) as [w1|]; destruct (shown now r adjusted c) as [a|]; try contradiction; [|exact I].
    assert (E2 : eager w1 \/ forallb calm l = true) by (destruct E as [E|E]; [left; apply HC; exact E|right; cbn in E; apply andb_true_iff in E; tauto]).
    specialize (IH w1 (proj1 (proj2 HC)) E2). destruct (encode_seq now r l w1) as [w2|]; destruct (shown_all now r adjusted l) as [b|]; try contradiction; [|exact I]. eapply after_app; eassumption.
  Qed.
  Lemma all_enc c : enc_ok c.
  Proof.
    induction c as [t|e|f p|f u p|l p IH|l p IH] using chunk_ind2; intros w G E; cbn [encode shown].
    - apply after_wall. exact G.
    - assert (A := after_all [txt "{ERROR: "; e; txt "}"] w G). cbn [List.concat] in A. rewrite app_nil_r in A. exact A.
    - destruct (dress p w) as (fs, w1) eqn:D. destruct (dress_good _ _ _ _ G D) as (G1 & E1). apply (dress_ok _ _ _ _ _ _ G D). apply after_wr; [exact G1|]. destruct E as [E|E]; [left; auto|right; cbn in E; now apply negb_true_iff in E].
    - destruct (dress p w) as (fs, w1) eqn:D. destruct (dress_good _ _ _ _ G D) as (G1 & E1). destruct (now f u) as [l|]; [|exact I]. apply (dress_ok _ _ _ _ _ _ G D). apply after_all. exact G1.
    - destruct (dress p w) as (fs, w1) eqn:D. destruct (dress_good _ _ _ _ G D) as (G1 & E1).
      assert (E2 : eager w1 \/ forallb calm l = true) by (destruct E as [E|E]; [left; auto|right; exact E]). assert (Q := seq_ok l IH w1 G1 E2).
      change (match match encode_seq now r l w1 with Some w2 => Some (undress fs w2) | None => None end, match shown_all now r adjusted l with Some a => Some (adjusted p a) | None => None end with Some w', Some l => after w l w' | None, None => True | _, _ => False end).
      destruct (encode_seq now r l w1) as [w2|]; destruct (shown_all now r adjusted l) as [a|]; try contradiction; [|exact I]. apply (dress_ok _ _ _ _ _ _ G D). exact Q.
    - destruct (dress p w) as (fs, w1) eqn:D. destruct (dress_good _ _ _ _ G D) as (G1 & E1).
      assert (SL : level_style (rc_level r) = shown_style (rc_level r)) by (destruct (rc_level r); reflexivity).
      assert (A1 : after w1 (tag (shown_style (rc_level r))) (style_on w1 (rc_level r))).
      { unfold style_on. rewrite SL. destruct (shown_style (rc_level r)) as [s|]; [apply after_style; exact G1|apply after_nil; exact G1]. }
      assert (E2 : eager (style_on w1 (rc_level r)) \/ forallb calm l = true) by (destruct E as [E|E]; [left; apply A1; auto|right; exact E]). assert (Q := seq_ok l IH _ (proj1 (proj2 A1)) E2).
      change (match match encode_seq now r l (style_on w1 (rc_level r)) with Some w2 => Some (undress fs (style_off w2 (rc_level r))) | None => None end,
        match shown_all now r adjusted l with Some a => Some (adjusted p (tag (shown_style (rc_level r)) ++ a ++ tag (match shown_style (rc_level r) with Some _ => Some plain_style | None => None end))) | None => None end with Some w', Some l => after w l w' | None, None => True | _, _ => False end).
      destruct (encode_seq now r l (style_on w1 (rc_level r))) as [w2|]; destruct (shown_all now r adjusted l) as [a|]; try contradiction; [|exact I]. apply (dress_ok _ _ _ _ _ _ G D).
      eapply after_app; [exact A1|]. eapply after_app; [exact Q|]. unfold style_off. rewrite SL. destruct (shown_style (rc_level r)) as [s|]; [apply after_style; exact (proj1 (proj2 Q))|apply after_nil; exact (proj1 (proj2 Q))].
  Qed.
  (* a whole line on the underlying writer *)
  Lemma line_ok l out sched : (sched = [] \/ forallb calm l = true) ->
    match encode_seq now r l (Base out sched), shown_all now r adjusted l with
    | Some w, Some a => exists sched', w = Base (out ++ wire a) sched'
    | None, None => True
    | _, _ => False
    end.
  Proof.
    intro E. assert (F : Forall enc_ok l) by (apply Forall_forall; intros c _; apply all_enc). assert (Q := seq_ok l F (Base out sched) I E).
    destruct (encode_seq now r l (Base out sched)) as [w|]; destruct (shown_all now r adjusted l) as [a|]; try exact Q. destruct Q as (S & _ & SH & _).
    destruct w as [o s|M w|f m w|f m w b]; cbn in SH; try discriminate. exists s. f_equal. specialize (S [] [] I (Forall_nil _)). cbn [sem] in S. rewrite !app_nil_r in S. congruence.
  Qed.
End Main.
