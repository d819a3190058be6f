(* Cached texts, rewriting and rule texts: proofs. *)
From Coq Require Import String.
From Verif Require Import Base Text TextOps ConfModel AddrModel AddrProofs RouteModel ConfSpec ConfProofs RwModel RwSpec.
Open Scope N_scope.

Section Caches.
  Context {E R Q : Type} (encoder : text -> E) (regex_new : text -> option R)
          (encode : E -> Q -> res unit text) (replace_all : R -> text -> text -> text).
  Notation caches := (@caches E R).
  Notation rstep := (@rstep E R Q encoder regex_new encode replace_all).
  Notation rrun := (@rrun E R Q encoder regex_new encode replace_all).

  Definition sound (c : caches) : Prop :=
    (forall t f e, lookup leqb f (pats t c) = Some e -> e = encoder f) /\
    (forall p re, lookup leqb p (k_re c) = Some re -> p <> [] /\ re = regex_new p).

  Lemma has_false {V} k (m : list (text * V)) : has leqb k m = false -> lookup leqb k m = None.
  Proof. unfold has. destruct (lookup leqb k m); [discriminate|reflexivity]. Qed.
  Lemma pats_insert t t' m (c : caches) r s : pats t' (Caches (insert N.eqb t m (k_pat c)) r s : caches) = if t' =? t then m else pats t' c.
  Proof.
    unfold pats. cbn [k_pat]. destruct (N.eqb_spec t' t) as [->|Hn].
    - rewrite (lookup_insert_eq N.eqb N.eqb_eq). reflexivity.
    - rewrite (lookup_insert_ne N.eqb N.eqb_eq) by exact Hn. reflexivity.
  Qed.
  Lemma sound0 : sound caches0.
  Proof. split; intros *; cbn; discriminate. Qed.

  Lemma get_encoder_ok t f c : sound c -> fst (get_encoder encoder t f c) = encoder f /\ sound (snd (get_encoder encoder t f c)).
  Proof.
    intros [H1 H2]. unfold get_encoder. cbv zeta. cbn [fst snd]. destruct (has leqb f (pats t c)) eqn:G.
    - split.
      + destruct (lookup leqb f (pats t c)) eqn:L; [exact (H1 _ _ _ L)|reflexivity].
      + split; [|exact H2]. intros t' f' e. rewrite pats_insert. destruct (N.eqb_spec t' t) as [->|]; apply H1.
    - split.
      + rewrite (lookup_insert_eq leqb leqb_ok). reflexivity.
      + split; [|exact H2]. intros t' f' e. rewrite pats_insert. destruct (N.eqb_spec t' t) as [->|]; [|apply H1].
        destruct (leqb f' f) eqn:D.
        * apply leqb_ok in D as ->. rewrite (lookup_insert_eq leqb leqb_ok). intros [= <-]. reflexivity.
        * rewrite (lookup_insert_ne leqb leqb_ok); [apply H1|]. intros ->. rewrite leqb_refl in D. discriminate.
  Qed.
  Lemma format_ok t q f c : sound c ->
    fst (format_req_c encoder encode t q f c) = match encode (encoder f) q with Ok s => Ok s | _ => Panic end /\
    sound (snd (format_req_c encoder encode t q f c)).
  Proof.
    intros H. unfold format_req_c. destruct (get_encoder_ok t f c H) as [A B]. destruct (get_encoder encoder t f c) as [e c'].
    cbn [fst snd] in *. subst e. split; [reflexivity|exact B].
  Qed.
  Lemma regex_ok p c : sound c ->
    fst (try_cache_regex regex_new p c) = (match p with [] => None | _ => regex_new p end) /\ sound (snd (try_cache_regex regex_new p c)).
  Proof.
    intros [H1 H2]. unfold try_cache_regex. destruct p as [|x p]; [split; [reflexivity|split; assumption]|].
    destruct (lookup leqb (x :: p) (k_re c)) as [re|] eqn:L.
    - split; [apply (H2 _ _ L)|split; assumption].
    - destruct (regex_new (x :: p)) as [re|] eqn:G; [|split; [reflexivity|split; assumption]].
      split; [reflexivity|]. split; [exact H1|]. cbn [snd k_re]. intros p' re'.
      destruct (leqb p' (x :: p)) eqn:D.
      + apply leqb_ok in D as ->. rewrite (lookup_insert_eq leqb leqb_ok). intros [= <-]. split; [discriminate|congruence].
      + rewrite (lookup_insert_ne leqb leqb_ok); [apply H2|]. intros ->. rewrite leqb_refl in D. discriminate.
  Qed.
  Lemma static_ok s c : sound c -> fst (get_static_str s c : text * caches) = s /\ sound (snd (get_static_str s c)).
  Proof.
    intros [H1 H2]. unfold get_static_str. destruct (find (leqb s) (k_static c)) as [v|] eqn:F.
    - apply find_some in F as [_ F]. apply leqb_ok in F as <-. split; [reflexivity|split; assumption].
    - split; [reflexivity|split; assumption].
  Qed.
  (* what rewriting amounts to *)
  Definition oper (q : Q) (re : R) (vals : list text) : res unit text :=
    match vals with
    | [] => Panic
    | k :: outs => match encode (encoder k) q with Ok key => Ok (blank_joined (map (replace_all re key) outs)) | _ => Panic end
    end.
  Definition may_regex (q : Q) (f : text) : res unit text :=
    let f := trim f in
    if existsb is_ws f then
      match split_by_whitespace f with
      | v :: ((_ :: _) as vals) =>
        match (match v with [] => None | _ => regex_new v end) with
        | Some re => oper q re vals
        | None => match encode (encoder f) q with Ok s => Ok s | _ => Panic end
        end
      | _ => Ok []
      end
    else match encode (encoder f) q with Ok s => Ok s | _ => Panic end.
  Lemma blank_joined_cons x l : blank_joined (x :: l) = x ++ flat_map (fun y => 32 :: y) l.
  Proof.
    revert x. induction l as [|y l IH]; intros x; [cbn; rewrite app_nil_r; reflexivity|].
    change (x ++ [32] ++ blank_joined (y :: l) = x ++ flat_map (fun y => 32 :: y) (y :: l)). rewrite IH. reflexivity.
  Qed.
  Lemma flat_map_map {A B C} (f : B -> list C) (g : A -> B) l : flat_map f (map g l) = flat_map (fun x => f (g x)) l.
  Proof. induction l as [|a l IH]; [reflexivity|]. cbn [map flat_map]. rewrite IH. reflexivity. Qed.
  Lemma inner_ok t q re vals c : sound c ->
    fst (inner_oper_regex encoder encode replace_all t q re vals c) = oper q re vals /\ sound (snd (inner_oper_regex encoder encode replace_all t q re vals c)).
  Proof.
    intros H. unfold inner_oper_regex, oper. destruct vals as [|k outs]; [split; [reflexivity|exact H]|].
    destruct (format_ok t q k c H) as [A B]. destruct (format_req_c encoder encode t q k c) as [r c']. cbn [fst snd] in *. subst r.
    destruct (encode (encoder k) q); cbn [fst snd]; (split; [|exact B]); try reflexivity.
    destruct outs as [|o outs]; [reflexivity|]. cbn [map]. rewrite blank_joined_cons, flat_map_map. reflexivity.
  Qed.
  Lemma may_ok t q f c : sound c ->
    fst (format_req_may_regex encoder regex_new encode replace_all t q f c) = may_regex q f /\
    sound (snd (format_req_may_regex encoder regex_new encode replace_all t q f c)).
  Proof.
    intros H. unfold format_req_may_regex, may_regex. cbv zeta. destruct (existsb is_ws (trim f)); [|apply format_ok; exact H].
    destruct (split_by_whitespace (trim f)) as [|v [|w vals]]; try (split; [reflexivity|exact H]).
    destruct (regex_ok v c H) as [A B]. destruct (try_cache_regex regex_new v c) as [r c']. cbn [fst snd] in *. subst r.
    destruct (match v with [] => None | _ => regex_new v end); [apply inner_ok|apply format_ok]; exact B.
  Qed.
  Lemma rstep_sound o c : sound c -> fst (rstep o c) = fst (rstep o caches0) /\ sound (snd (rstep o c)).
  Proof.
    intros H. destruct o as [t q f|p|t q f|s]; cbn [RwModel.rstep].
    - destruct (format_ok t q f c H) as [A B]. destruct (format_ok t q f caches0 sound0) as [A0 _].
      destruct (format_req_c encoder encode t q f c), (format_req_c encoder encode t q f caches0). cbn [fst snd] in *. split; [congruence|exact B].
    - destruct (regex_ok p c H) as [A B]. destruct (regex_ok p caches0 sound0) as [A0 _].
      destruct (try_cache_regex regex_new p c), (try_cache_regex regex_new p caches0). cbn [fst snd] in *. split; [congruence|exact B].
    - destruct (may_ok t q f c H) as [A B]. destruct (may_ok t q f caches0 sound0) as [A0 _].
      destruct (format_req_may_regex encoder regex_new encode replace_all t q f c), (format_req_may_regex encoder regex_new encode replace_all t q f caches0).
      cbn [fst snd] in *. split; [congruence|exact B].
    - destruct (static_ok s c H) as [A B]. destruct (static_ok s caches0 sound0) as [A0 _].
      destruct (get_static_str s c), (get_static_str s (caches0 : caches)). cbn [fst snd] in *. split; [congruence|exact B].
  Qed.
  Lemma rrun_sound os : forall c, sound c -> sound (snd (rrun os c)) /\ fst (rrun os c) = map (fun o => fst (rstep o caches0)) os.
  Proof.
    induction os as [|o os IH]; intros c H; [split; [exact H|reflexivity]|]. cbn [RwModel.rrun map].
    destruct (rstep_sound o c H) as [A B]. destruct (rstep o c) as [r c1]. cbn [fst snd] in *. subst r.
    destruct (IH c1 B) as [I1 I2]. destruct (rrun os c1) as [rs c2]. cbn [fst snd] in *. split; [exact I1|congruence].
  Qed.

  (* ---- how much is remembered ---- *)
  Definition kept_in (T : list text) (c : caches) : Prop :=
    NoDup (map fst (k_pat c)) /\ Forall (fun l => NoDup l /\ incl l T) (remembered c).
  Lemma keys_insert {V} k (v : V) m : In k (map fst m) -> map fst (insert leqb k v m) = map fst m.
  Proof.
    induction m as [|[k' v'] m IH]; cbn [map fst insert]; [intros []|]. intros H. destruct (leqb k k') eqn:D.
    - apply leqb_ok in D as ->. reflexivity.
    - cbn [map fst]. f_equal. apply IH. destruct H as [->|H]; [rewrite leqb_refl in D; discriminate|exact H].
  Qed.
  Lemma keys_insert_new {V} k (v : V) m : ~ In k (map fst m) -> map fst (insert leqb k v m) = map fst m ++ [k].
  Proof.
    induction m as [|[k' v'] m IH]; cbn [map fst insert]; [reflexivity|]. intros H. destruct (leqb k k') eqn:D.
    - apply leqb_ok in D as ->. elim H. left. reflexivity.
    - cbn [map fst app]. f_equal. apply IH. intros G. apply H. right. exact G.
  Qed.
  Lemma nodup_snoc {A} (l : list A) x : NoDup l -> ~ In x l -> NoDup (l ++ [x]).
  Proof.
    intros H Hx. apply NoDup_rev in H. rewrite <- (rev_involutive (l ++ [x])). apply NoDup_rev. rewrite rev_app_distr. cbn.
    constructor; [rewrite <- in_rev; exact Hx|exact H].
  Qed.
  Lemma insert_ok {V} (T : list text) k (v : V) m : NoDup (map fst m) -> incl (map fst m) T -> In k T ->
    NoDup (map fst (insert leqb k v m)) /\ incl (map fst (insert leqb k v m)) T.
  Proof.
    intros H1 H2 H3. destruct (in_dec (list_eq_dec N.eq_dec) k (map fst m)) as [D|D].
    - rewrite keys_insert by exact D. split; assumption.
    - rewrite keys_insert_new by exact D. split; [apply nodup_snoc; assumption|].
      intros y Hy. apply in_app_iff in Hy as [Hy|[<-|[]]]; auto.
  Qed.
  Lemma pat_keys t (m : list (text * E)) l x : In x (map fst (insert N.eqb t m l)) -> x = t \/ In x (map fst l).
  Proof.
    induction l as [|[a b] l IH]; cbn [insert map fst].
    - intros [<-|[]]. left; reflexivity.
    - destruct (N.eqb_spec t a); cbn [map fst]; intros [<-|Hx]; auto; try (right; left; reflexivity); try (right; right; exact Hx).
      destruct (IH Hx); auto. right; right; assumption.
  Qed.
  Lemma pat_insert (P : list text -> Prop) t (m : list (text * E)) (l : list (N * list (text * E))) :
    NoDup (map fst l) -> Forall (fun e => P (map fst (snd e))) l -> P (map fst m) ->
    NoDup (map fst (insert N.eqb t m l)) /\ Forall (fun e => P (map fst (snd e))) (insert N.eqb t m l).
  Proof.
    intros H1 H2 H3.
    induction l as [|[a b] l IH]; cbn [insert map fst]; [split; repeat constructor; [intros []|exact H3]|].
    inversion H1 as [|? ? Na Nl]; subst. inversion H2 as [|? ? Ha Hl]; subst.
    destruct (N.eqb_spec t a) as [->|Hn]; cbn [map fst].
    - split; [constructor; assumption|constructor; assumption].
    - destruct (IH Nl Hl) as [I1 I2].
      split; [|constructor; assumption]. constructor; [|exact I1].
      intros Hx. destruct (pat_keys t m l a Hx) as [->|Hx']; contradiction.
  Qed.
  Lemma kept_more T T' c : kept_in T c -> incl T T' -> kept_in T' c.
  Proof.
    intros [H1 H2] HT. split; [exact H1|]. eapply Forall_impl; [|exact H2]. intros l [A B]. split; [exact A|].
    eapply incl_tran; eassumption.
  Qed.
  Lemma kept0 T : kept_in T caches0.
  Proof. split; [constructor|]. repeat constructor; intros ? []. Qed.
  Lemma pats_kept T t c : kept_in T c -> NoDup (map fst (pats t c)) /\ incl (map fst (pats t c)) T.
  Proof.
    intros [_ H]. unfold pats. destruct (lookup N.eqb t (k_pat c)) as [m|] eqn:L; [|split; [constructor|intros ? []]].
    inversion H as [|? ? _ H']; subst. inversion H' as [|? ? _ H'']; subst.
    apply lookup_In in L; [|apply N.eqb_eq]. rewrite Forall_forall in H''.
    apply (H'' (map fst m)). apply in_map_iff. exists (t, m). split; [reflexivity|exact L].
  Qed.
  Lemma encoder_kept T t f c : kept_in T c -> In f T -> kept_in T (snd (get_encoder encoder t f c)).
  Proof.
    intros H Hf. destruct (pats_kept T t c H) as [A B]. destruct H as [H1 H2].
    inversion H2 as [|? ? Hr H3]; subst. inversion H3 as [|? ? Hs Hp]; subst. apply Forall_map in Hp.
    assert (G : (fun l => NoDup l /\ incl l T) (map fst (if has leqb f (pats t c) then pats t c else insert leqb f (encoder f) (pats t c)))).
    { destruct (has leqb f (pats t c)); [split; assumption|]. apply insert_ok; assumption. }
    destruct (pat_insert (fun l => NoDup l /\ incl l T) t _ (k_pat c) H1 Hp G) as [P1 P2].
    unfold get_encoder. cbn [snd]. split; [exact P1|]. constructor; [exact Hr|]. constructor; [exact Hs|]. apply Forall_map. exact P2.
  Qed.
  Lemma format_kept T t q f c : kept_in T c -> In f T -> kept_in T (snd (format_req_c encoder encode t q f c)).
  Proof.
    intros H Hf. pose proof (encoder_kept T t f c H Hf) as G. unfold format_req_c. destruct (get_encoder encoder t f c). exact G.
  Qed.
  Lemma regex_kept T p c : kept_in T c -> In p T -> kept_in T (snd (try_cache_regex regex_new p c)).
  Proof.
    intros [H1 H2] Hp. unfold try_cache_regex. destruct p as [|x p]; [split; assumption|].
    destruct (lookup leqb (x :: p) (k_re c)); [split; assumption|]. destruct (regex_new (x :: p)); [|split; assumption].
    inversion H2 as [|? ? [A B] H3]; subst. split; [exact H1|]. constructor; [|exact H3]. cbn [snd k_re]. apply insert_ok; assumption.
  Qed.
  Lemma static_kept T s c : kept_in T c -> In s T -> kept_in T (snd (get_static_str s c)).
  Proof.
    intros [H1 H2] Hs. unfold get_static_str. destruct (find (leqb s) (k_static c)) eqn:F; [split; assumption|].
    inversion H2 as [|? ? A H3]; subst. inversion H3 as [|? ? [B C] H4]; subst.
    split; [exact H1|]. constructor; [exact A|]. constructor; [|exact H4]. cbn [snd k_static]. split.
    - constructor; [|exact B]. intros G. apply (find_none _ _ F) in G. rewrite leqb_refl in G. discriminate.
    - intros y [<-|Hy]; auto.
  Qed.
  Lemma rstep_kept T o c : kept_in T c -> incl (texts o) T -> kept_in T (snd (rstep o c)).
  Proof.
    intros H HT. destruct o as [t q f|p|t q f|s]; cbn [RwModel.rstep texts] in *.
    - pose proof (format_kept T t q f c H (HT _ (or_introl eq_refl))). destruct (format_req_c encoder encode t q f c). assumption.
    - pose proof (regex_kept T p c H (HT _ (or_introl eq_refl))). destruct (try_cache_regex regex_new p c). assumption.
    - enough (G : kept_in T (snd (format_req_may_regex encoder regex_new encode replace_all t q f c)))
        by (destruct (format_req_may_regex encoder regex_new encode replace_all t q f c); exact G).
      unfold format_req_may_regex. cbv zeta. destruct (existsb is_ws (trim f)); [|apply format_kept; [exact H|apply HT; left; reflexivity]].
      destruct (split_by_whitespace (trim f)) as [|v [|w vals]]; try exact H.
      pose proof (regex_kept T v c H (HT _ (or_intror (or_introl eq_refl)))) as G. destruct (try_cache_regex regex_new v c) as [[re|] c'].
      + cbn [snd] in *. unfold inner_oper_regex. pose proof (format_kept T t q w c' G (HT _ (or_intror (or_intror (or_introl eq_refl))))) as G2.
        destruct (format_req_c encoder encode t q w c') as [[?|?|] c2]; exact G2.
      + apply format_kept; [exact G|apply HT; left; reflexivity].
    - pose proof (static_kept T s c H (HT _ (or_introl eq_refl))). destruct (get_static_str s c). assumption.
  Qed.
  Lemma rrun_kept T os : forall c, kept_in T c -> incl (flat_map texts os) T -> kept_in T (snd (rrun os c)).
  Proof.
    induction os as [|o os IH]; intros c H HT; [exact H|]. cbn [RwModel.rrun flat_map] in *.
    apply incl_app_inv in HT as [H1 H2]. pose proof (rstep_kept T o c H H1) as G.
    destruct (rstep o c) as [r c1]. cbn [snd] in *. specialize (IH c1 G H2). destruct (rrun os c1). exact IH.
  Qed.
End Caches.

(* ---- lines and blanks around them --------------------------------------------------- *)
Lemma plain_ws c : is_plain c = true -> is_ws c = false.
Proof. unfold is_plain. destruct (is_ws c); [discriminate|reflexivity]. Qed.
Lemma written_ends w t : written w t -> (exists c r, t = c :: r /\ is_ws c = false) /\ (exists c r, t = r ++ [c] /\ is_ws c = false).
Proof.
  intros [[-> H]|(q & Hq & _ & ->)].
  - destruct w as [|c w]; [discriminate|]. cbn [plain] in H. split.
    + exists c, w. split; [reflexivity|]. cbn [forallb] in H. apply andb_true_iff in H as [H _]. apply plain_ws. exact H.
    + destruct (exists_last (l := c :: w)) as (r & d & E); [discriminate|]. exists d, r. split; [exact E|].
      rewrite E, forallb_app in H. apply andb_true_iff in H as [_ H]. cbn in H. rewrite andb_true_r in H. apply plain_ws. exact H.
  - assert (Hw : is_ws q = false) by (destruct Hq; subst q; reflexivity). split.
    + exists q, (w ++ [q]). split; [reflexivity|exact Hw].
    + exists q, (q :: w). split; [reflexivity|exact Hw].
Qed.
Lemma line_ends ws s : line ws s -> (exists c r, s = c :: r /\ is_ws c = false) /\ (exists c r, s = r ++ [c] /\ is_ws c = false).
Proof.
  induction 1 as [w t H|w t b ws s H Hb Hbs _ [_ IH]]; [exact (written_ends _ _ H)|].
  destruct (written_ends _ _ H) as [(c & r & -> & Hc) _]. destruct IH as (d & r' & -> & Hd). split.
  - exists c, (r ++ b ++ r' ++ [d]). split; [reflexivity|exact Hc].
  - exists d, ((c :: r) ++ b ++ r'). split; [rewrite <- !app_assoc; reflexivity|exact Hd].
Qed.
Lemma trim_line ws s b1 b2 : line ws s -> forallb is_ws b1 = true -> forallb is_ws b2 = true -> trim (b1 ++ s ++ b2) = s.
Proof.
  intros H H1 H2. destruct (line_ends _ _ H) as [(c & r & E1 & Hc) (d & r' & E2 & Hd)].
  unfold trim, trim_start_p. rewrite drop_while_app by exact H1.
  replace (drop_while is_ws (s ++ b2)) with (s ++ b2) by (rewrite E1; cbn; rewrite Hc; reflexivity).
  rewrite trim_end_app by exact H2. clear E1 H. subst s. unfold trim_end_p. rewrite rev_app_distr. cbn [rev app drop_while]. rewrite Hd.
  change (rev ([d] ++ rev r') = r' ++ [d]). rewrite rev_app_distr, rev_involutive. reflexivity.
Qed.
Lemma line_more_ws w w2 ws s : line (w :: w2 :: ws) s -> existsb is_ws s = true.
Proof.
  intros H. inversion H as [|? t b ? s' Hw Hb Hbs Hs]; subst. destruct b as [|c b]; [contradiction|].
  inversion Hbs as [|? ? Hc _]; subst. rewrite !existsb_app. cbn [existsb app]. rewrite Hc. rewrite !orb_true_r. reflexivity.
Qed.

(* ---- try_paths ----------------------------------------------------------------------- *)
Lemma tries_paths ok ws : Forall is_path ws -> forall y, fold_left (try_word ok) ws y = Tries (y_list y ++ ws) (y_status y).
Proof.
  induction 1 as [|w ws H _ IH]; intros y; [cbn; rewrite app_nil_r; destruct y; reflexivity|]. cbn [fold_left].
  assert (E : try_word ok y w = Tries (y_list y ++ [w]) (y_status y)).
  { unfold try_word. destruct w as [|c w]; [reflexivity|]. cbn [starts_with is_path] in *.
    unfold starts_with; cbn [strip_prefix]; try (destruct (N.eqb_spec 61 c); [congruence|reflexivity]). }
  rewrite E, IH. cbn [y_list y_status]. rewrite <- app_assoc. reflexivity.
Qed.
Lemma plain_line ws : ws <> [] -> Forall (fun w => plain w = true) ws -> line ws (joined ws).
Proof.
  intros Hn H. induction H as [|w ws Hw H IH]; [contradiction|]. destruct ws as [|w2 ws].
  - apply line_one. left. split; [reflexivity|exact Hw].
  - change (joined (w :: w2 :: ws)) with (w ++ [32] ++ joined (w2 :: ws)). apply line_more.
    + left. split; [reflexivity|exact Hw].
    + discriminate.
    + repeat constructor.
    + apply IH. discriminate.
Qed.
Lemma joined_app a b : a <> [] -> b <> [] -> joined (a ++ b) = joined a ++ 32 :: joined b.
Proof.
  intros Ha Hb. induction a as [|x a IH]; [contradiction|]. destruct a as [|y a].
  - cbn [app joined]. destruct b as [|z b]; [contradiction|]. reflexivity.
  - change (joined ((x :: y :: a) ++ b)) with (x ++ 32 :: joined ((y :: a) ++ b)). rewrite IH by discriminate.
    change (joined (x :: y :: a)) with (x ++ 32 :: joined (y :: a)). rewrite <- app_assoc. reflexivity.
Qed.

(* ---- keys ------------------------------------------------------------------------------ *)
Lemma opt_eqb_ok {A} (eqb : A -> A -> bool) (P : A -> A -> Prop) : (forall x y, eqb x y = true <-> P x y) ->
  forall a b, opt_eqb eqb a b = true <-> match a, b with None, None => True | Some x, Some y => P x y | _, _ => False end.
Proof. intros H [x|] [y|]; cbn; try apply H; split; try discriminate; try contradiction; auto. Qed.
Lemma opt_text a b : opt_eqb leqb a b = true <-> a = b.
Proof.
  rewrite (opt_eqb_ok leqb eq leqb_ok). destruct a, b; split; intros H; try congruence; try contradiction; try discriminate; auto.
Qed.
Lemma list_eqb_ok {A} (eqb : A -> A -> bool) : (forall x y, eqb x y = true <-> x = y) -> forall a b, list_eqb eqb a b = true <-> a = b.
Proof.
  intros H. induction a as [|x a IH]; intros [|y b]; cbn; try (split; [discriminate|congruence]); [split; reflexivity|].
  rewrite andb_true_iff, H, IH. split; [intros [-> ->]; reflexivity|intros [= -> ->]; split; reflexivity].
Qed.
Lemma gate_eqb_ok a b : gate_eqb a b = true <-> a = b.
Proof.
  unfold gate_eqb. rewrite andb_true_iff, ip_eqb_ok, N.eqb_eq. destruct a, b; cbn. split; [intros [-> ->]; reflexivity|intros [= -> ->]; split; reflexivity].
Qed.
Lemma opt_gates a b : opt_eqb (list_eqb gate_eqb) a b = true <-> a = b.
Proof.
  rewrite (opt_eqb_ok _ eq (list_eqb_ok _ gate_eqb_ok)). destruct a, b; split; intros H; try congruence; try contradiction; try discriminate; auto.
Qed.
Lemma mem_text_in x l : mem_text x l = true <-> In x l.
Proof.
  unfold mem_text. rewrite existsb_exists. split; [intros (y & H & D); apply leqb_ok in D as ->; exact H|intros H; exists x; split; [exact H|apply leqb_refl]].
Qed.
Lemma set_eqb_ok a b : set_eqb a b = true <-> length a = length b /\ incl a b.
Proof.
  unfold set_eqb. rewrite andb_true_iff, Nat.eqb_eq, forallb_forall. split; intros [H1 H2]; (split; [exact H1|]); intros x Hx; apply mem_text_in, H2, Hx.
Qed.
Definition same_set (a b : option (list text)) : Prop :=
  match a, b with None, None => True | Some x, Some y => length x = length y /\ incl x y | _, _ => False end.
Lemma matcher_eqb_ok a b : matcher_eqb a b = true <->
  m_path a = m_path b /\ m_client a = m_client b /\ m_remote a = m_remote b /\ m_host a = m_host b /\
  same_set (m_method a) (m_method b) /\ same_set (m_scheme a) (m_scheme b).
Proof.
  unfold matcher_eqb. rewrite !andb_true_iff, !opt_text, !opt_gates, !(opt_eqb_ok set_eqb _ set_eqb_ok). unfold same_set. tauto.
Qed.
Lemma key_eqb_ok a b : key_eqb a b = true <->
  matcher_eqb (fst (fst a)) (fst (fst b)) = true /\ snd (fst a) = snd (fst b) /\ snd a = snd b.
Proof. unfold key_eqb. rewrite !andb_true_iff, !opt_text. tauto. Qed.
Lemma same_set_refl a : same_set a a.
Proof. destruct a; cbn; [split; [reflexivity|apply incl_refl]|exact I]. Qed.
Lemma same_set_trans a b c : same_set a b -> same_set b c -> same_set a c.
Proof.
  destruct a, b, c; cbn; try tauto. intros [A B] [C D]. split; [congruence|eapply incl_tran; eassumption].
Qed.
Lemma same_set_mem a b x : length a = length b -> incl a b -> NoDup a -> mem_text x a = mem_text x b.
Proof.
  intros H1 H2 H3. destruct (mem_text x a) eqn:A, (mem_text x b) eqn:B; try reflexivity.
  - apply mem_text_in, H2, mem_text_in in A. congruence.
  - apply mem_text_in in B. assert (I : incl b a) by (apply NoDup_length_incl; [exact H3|lia|exact H2]).
    apply I, mem_text_in in B. congruence.
Qed.
