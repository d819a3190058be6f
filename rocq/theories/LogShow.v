(* From the tokens of a pattern to what it shows. *)
From Coq Require Import String.
From Verif Require Import Base Text TextOps LogModel LogSpec LogProofs LogEncode LogParse.
Open Scope N_scope.

Section PieceInd.
  Context (P : piece -> Prop) (HT : forall t, P (PText t)) (HE : forall e, P (PErr e)) (HA : forall nm ar par, Forall (Forall P) ar -> P (PArg nm ar par)).
  Fixpoint piece_ind2 (p : piece) : P p :=
    let go := fix go (l : list piece) : Forall P l := match l with [] => Forall_nil P | p :: l' => Forall_cons p (piece_ind2 p) (go l') end in
    match p with
    | PText t => HT t | PErr e => HE e
    | PArg nm ar par => HA nm ar par ((fix gos (l : list (list piece)) : Forall (Forall P) l := match l with [] => Forall_nil _ | a :: l' => Forall_cons a (go a) (gos l') end) ar)
    end.
End PieceInd.

Section S.
  Context (now : text -> bool -> option (list text)) (r : record) (adj : params -> list ch -> list ch).
  Lemma shows_app a : forall b, shows_all r adj (a ++ b) = match shows_all r adj a, shows_all r adj b with Some x, Some y => Some (x ++ y) | _, _ => None end.
  Proof.
    induction a as [|t a IH]; intro b; cbn [app shows_all]; [destruct (shows_all r adj b); reflexivity|]. rewrite IH. destruct (shows r adj t); [|reflexivity]. destruct (shows_all r adj a); [|reflexivity]. destruct (shows_all r adj b); [|reflexivity]. now rewrite app_assoc.
  Qed.
  Lemma shows_text t : shows_all r adj (map TC t) = Some (chars_of t).
  Proof. induction t as [|c t IH]; [reflexivity|]. cbn [map shows_all]. rewrite IH. reflexivity. Qed.
  Lemma shows_single t : shows_all r adj [t] = shows r adj t.
  Proof. cbn [shows_all]. destruct (shows r adj t); [now rewrite app_nil_r|reflexivity]. Qed.
  (* the fields of the code have the documented values *)
  Lemma value_field nm v par : value r nm = Some v -> exists f, chunk_of (PArg nm [] par) = CField f par /\ wr_text (field_out r f) = v.
  Proof.
    unfold value. destruct (lookup leqb nm (values r)) as [w|] eqn:E.
    - intro H. injection H as <-. apply lookup_In in E; [|exact leqb_ok]. cbv [values In] in E.
      repeat (destruct E as [E|E]; [injection E as <- <-; eexists; (split; [reflexivity|]); cbn [snd field_out wr_text List.concat]; unfold of_req, of_request; try (destruct (rc_req r)); try (destruct (rc_status r)); cbn [wr_text List.concat]; rewrite ?app_nil_r; reflexivity|]). contradiction.
    - destruct (leqb nm (txt "client_ip")) eqn:L; [|discriminate]. apply leqb_ok in L. subst nm. destruct (rc_req r) as [q|] eqn:Q; [|discriminate]. intro H. injection H as <-. exists FClientIp. split; [reflexivity|]. cbn. rewrite Q. reflexivity.
  Qed.
  Definition shown_ok (p : piece) : Prop := forall L, shows_all r adj (toks p) = Some L -> shown now r adj (chunk_of p) = Some L.
  Lemma all_shown l : Forall shown_ok l -> forall L, shows_all r adj (flat_map toks l) = Some L -> shown_all now r adj (map chunk_of l) = Some L.
  Proof.
    induction 1 as [|p l P F IH]; intros L; cbn [flat_map map shown_all]; [auto|]. rewrite shows_app. destruct (shows_all r adj (toks p)) as [a|] eqn:A; [|discriminate]. destruct (shows_all r adj (flat_map toks l)) as [b|] eqn:B; [|discriminate]. intro H. injection H as <-. rewrite (P a A), (IH b eq_refl). reflexivity.
  Qed.
  Lemma piece_shown p : shown_ok p.
  Proof.
    induction p as [t|e|nm ar par F] using piece_ind2; intros L.
    - cbn [toks chunk_of shown]. now rewrite shows_text.
    - discriminate.
    - change (toks (PArg nm ar par)) with [TA nm (map (fun a => flat_map toks a) ar) par]. rewrite shows_single. destruct ar as [|a ar].
      + replace (shows r adj (TA nm (map (fun a => flat_map toks a) []) par)) with (match value r nm with Some v => Some (adj par (chars_of v)) | None => None end) by (destruct nm; reflexivity). destruct (value r nm) as [v|] eqn:V; [|discriminate]. intro H. injection H as <-. destruct (value_field nm v par V) as (f & -> & <-). reflexivity.
      + destruct ar as [|a2 ar]; [|destruct nm; discriminate]. destruct nm as [|c nm]; [|discriminate]. inversion F as [|? ? FA _]; subst.
        change (match shows_all r adj (flat_map toks a) with Some v => Some (adj par v) | None => None end = Some L -> match shown_all now r adj (map chunk_of a) with Some v => Some (adj par v) | None => None end = Some L).
        destruct (shows_all r adj (flat_map toks a)) as [v|] eqn:V; [|discriminate]. rewrite (all_shown a FA v V). auto.
  Qed.
  Lemma pieces_shown l L : shows_all r adj (toks_all l) = Some L -> shown_all now r adj (map chunk_of l) = Some L.
  Proof. apply all_shown. apply Forall_forall. intros p _. apply piece_shown. Qed.
End S.

(* ---- cut and pad ---- *)
Lemma width_app a : forall b, width (a ++ b) = width a + width b.
Proof. induction a as [|[c|s] a IH]; intro b; cbn [app width]; rewrite ?IH; lia. Qed.
Lemma width_repeat f k : width (repeat (C f) k) = N.of_nat k.
Proof. induction k as [|k IH]; [reflexivity|]. cbn [repeat width]. rewrite IH. lia. Qed.
Lemma cut_all M l : width l <= M -> cut M l = l.
Proof.
  revert M. induction l as [|[c|s] l IH]; intros M H; cbn [cut width] in *; [reflexivity| |rewrite IH by exact H; reflexivity].
  destruct (M =? 0) eqn:Z; [apply N.eqb_eq in Z; lia|]. apply N.eqb_neq in Z. rewrite IH by lia. reflexivity.
Qed.
Lemma width_cut l : forall M, width (cut M l) = N.min M (width l).
Proof.
  induction l as [|[c|s] l IH]; intro M; cbn [cut width]; [lia| |apply IH].
  destruct (M =? 0) eqn:Z.
  - apply N.eqb_eq in Z. subst M. rewrite IH. lia.
  - apply N.eqb_neq in Z. cbn [width]. rewrite IH. lia.
Qed.
Lemma width_pad right f m l : width (pad right f m l) = N.max m (width l).
Proof. unfold pad. destruct right; rewrite width_app, width_repeat; lia. Qed.
Lemma cut_app M a b : width a <= M -> cut M (a ++ b) = a ++ cut (M - width a) b.
Proof.
  revert M. induction a as [|[c|s] a IH]; intros M H; cbn [app cut width] in *; [now rewrite N.sub_0_r| |rewrite IH by exact H; reflexivity].
  destruct (M =? 0) eqn:Z; [apply N.eqb_eq in Z; lia|]. apply N.eqb_neq in Z. rewrite IH by lia. now replace (M - 1 - width a) with (M - (1 + width a)) by lia.
Qed.
Lemma adjusted_sane p l : sane p = true -> adjusted p l = documented p l.
Proof.
  unfold sane, adjusted, documented. destruct (p_min p) as [m|]; destruct (p_max p) as [M|]; try reflexivity. intro S. apply N.leb_le in S.
  destruct (N.le_gt_cases (width l) M) as [W|W].
  - rewrite (cut_all M l W). apply cut_all. rewrite width_pad. lia.
  - assert (P : pad (p_right p) (p_fill p) m l = l). { unfold pad. replace (N.to_nat (m - width l)) with 0%nat by lia. cbn [repeat]. rewrite app_nil_r. now destruct (p_right p). }
    rewrite P. unfold pad. rewrite width_cut. replace (N.to_nat (m - N.min M (width l))) with 0%nat by lia. cbn [repeat]. rewrite app_nil_r. now destruct (p_right p).
Qed.
Section TokInd.
  Context (P : tok -> Prop) (HC : forall c, P (TC c)) (HE : forall e, P (TE e)) (HA : forall nm ar par, Forall (Forall P) ar -> P (TA nm ar par)).
  Fixpoint tok_ind2 (t : tok) : P t :=
    let go := fix go (l : list tok) : Forall P l := match l with [] => Forall_nil P | t :: l' => Forall_cons t (tok_ind2 t) (go l') end in
    match t with
    | TC c => HC c | TE e => HE e
    | TA nm ar par => HA nm ar par ((fix gos (l : list (list tok)) : Forall (Forall P) l := match l with [] => Forall_nil _ | a :: l' => Forall_cons a (go a) (gos l') end) ar)
    end.
End TokInd.
Lemma sane_all r l : Forall (fun t => sane_tok t = true -> shows r documented t = shows r adjusted t) l -> forallb sane_tok l = true -> shows_all r documented l = shows_all r adjusted l.
Proof. induction 1 as [|t l T F IH]; [reflexivity|]. cbn [forallb shows_all]. intro H. apply andb_true_iff in H. destruct H as (A & B). rewrite (T A), (IH B). reflexivity. Qed.
Lemma sane_shows r t : sane_tok t = true -> shows r documented t = shows r adjusted t.
Proof.
  induction t as [c|e|nm ar par F] using tok_ind2; try reflexivity. cbn [sane_tok]. intro H. apply andb_true_iff in H. destruct H as (A & B). destruct ar as [|a [|a2 ar]].
  - destruct nm as [|c nm]; cbn [shows]; destruct (value r _); try reflexivity; now rewrite adjusted_sane.
  - destruct nm as [|c nm]; [|reflexivity]. inversion F as [|? ? FA _]; subst. cbn [forallb] in B. rewrite andb_true_r in B.
    change (match shows_all r documented a with Some v => Some (documented par v) | None => None end = match shows_all r adjusted a with Some v => Some (adjusted par v) | None => None end).
    rewrite (sane_all r a FA B). destruct (shows_all r adjusted a); [now rewrite adjusted_sane|reflexivity].
  - destruct nm; reflexivity.
Qed.
Lemma sane_shows_all r l : forallb sane_tok l = true -> shows_all r documented l = shows_all r adjusted l.
Proof. apply sane_all. apply Forall_forall. intros t _. apply sane_shows. Qed.

(* ---- which patterns write every field completely ---- *)
(* the tokens do not use client_ip *)
Fixpoint no_ip (t : tok) : bool := match t with TA nm ar _ => negb (leqb nm (txt "client_ip")) && forallb (fun a => forallb no_ip a) ar | _ => true end.
Section Calm.
  Context (r : record) (RQ : rc_req r <> None) (RS : rc_status r <> None).
  Lemma calm_field f : f <> FClientIp -> is_once (field_out r f) = false.
  Proof. intro F. destruct f; try reflexivity; try congruence; cbn [field_out]; unfold of_req; try (destruct (rc_req r); [reflexivity|congruence]). destruct (rc_status r); [reflexivity|congruence]. Qed.
  Lemma names_ip nm f : lookup leqb nm names = Some f -> f = FClientIp -> nm = txt "client_ip".
  Proof. intros E ->. apply lookup_In in E; [|exact leqb_ok]. cbv [names map fst snd In] in E. repeat (destruct E as [E|E]; [first [discriminate E|injection E as <-; reflexivity]|]). contradiction. Qed.
  Lemma calm_piece p : forallb no_ip (toks p) = true -> calm r (chunk_of p) = true.
  Proof.
    induction p as [t|e|nm ar par F] using piece_ind2; try reflexivity. cbn [toks forallb no_ip]. rewrite andb_true_r. intro H. apply andb_true_iff in H. destruct H as (N1 & H). apply negb_true_iff in N1.
    assert (G : forall a, In a ar -> forallb (calm r) (map chunk_of a) = true).
    { intros a I. rewrite Forall_forall in F. specialize (F a I). rewrite forallb_forall in H. specialize (H (flat_map toks a) (in_map _ _ _ I)). clear I. induction a as [|p a IH]; [reflexivity|]. inversion F as [|? ? FP FA]; subst. cbn [flat_map] in H. rewrite forallb_app in H. apply andb_true_iff in H. destruct H as (H1 & H2). cbn [map forallb]. rewrite (FP H1). exact (IH FA H2). }
    cbn [chunk_of]. destruct (is_name nm "d" "date").
    { destruct (2 <? length ar)%nat; [reflexivity|]. destruct (nth_error ar 1) as [[|[z|? ? ?|?] ?]|]; try reflexivity. destruct (leqb z (txt "utc")); [reflexivity|]. destruct (leqb z (txt "local")); reflexivity. }
    destruct (is_name nm "h" "highlight").
    { destruct ar as [|a [|? ?]]; try reflexivity. cbn [calm]. apply G. now left. }
    destruct (is_name nm "X" "mdc").
    { destruct (2 <? length ar)%nat; [reflexivity|]. destruct (mdc_part "invalid MDC key" (nth_error ar 0) (inl (txt "missing MDC key"))); [reflexivity|]. destruct (mdc_part "invalid MDC default" (nth_error ar 1) (inr [])); reflexivity. }
    destruct (leqb nm []).
    { destruct ar as [|a [|? ?]]; try reflexivity. cbn [calm]. apply G. now left. }
    destruct (lookup leqb nm names) as [f|] eqn:E; [|reflexivity]. destruct ar; [|reflexivity]. cbn [calm]. rewrite calm_field; [reflexivity|]. intro C. rewrite (names_ip nm f E C) in N1. discriminate.
  Qed.
  Lemma calm_pieces l : forallb no_ip (toks_all l) = true -> forallb (calm r) (map chunk_of l) = true.
  Proof. induction l as [|p l IH]; [reflexivity|]. cbn [toks_all flat_map map forallb]. rewrite forallb_app. intro H. apply andb_true_iff in H. destruct H as (A & B). rewrite (calm_piece p A). exact (IH B). Qed.
End Calm.
Lemma calm_text r l t : toks_all l = map TC t -> forallb (calm r) (map chunk_of l) = true.
Proof.
  revert t. induction l as [|p l IH]; intros t H; [reflexivity|]. cbn [toks_all flat_map] in H. cbn [map forallb]. assert (Q : calm r (chunk_of p) = true).
  { destruct p as [u|nm ar par|e]; try reflexivity; destruct t; discriminate. }
  rewrite Q. destruct p as [u|nm ar par|e]; try (destruct t; discriminate). cbn [toks] in H. apply (IH (skipn (length u) t)). clear IH Q. revert t H. induction u as [|c u IH]; intros t H; [exact H|]. destruct t as [|d t]; [discriminate|]. cbn [map app] in H. cbn [length skipn]. apply IH. now injection H.
Qed.
