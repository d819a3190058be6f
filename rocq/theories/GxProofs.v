(* Grammars of limit zones, limit_req settings, log settings and proxy kinds: proofs. *)
From Coq Require Import String.
From Verif Require Import Base Text TextOps ConfModel ConfSpec ConfProofs CxSpec CxProofs CxProps GxSpec.
Open Scope N_scope.

Lemma no_char_in d t : no_char d t = true <-> ~ In d t.
Proof.
  unfold no_char. rewrite forallb_forall. split.
  - intros H Hi. specialize (H d Hi). rewrite N.eqb_refl in H. discriminate H.
  - intros H x Hx. destruct (N.eqb_spec x d) as [->|]; [contradiction|reflexivity].
Qed.
Lemma pieces_split d s ps : pieces d s ps -> split_on d s = ps.
Proof.
  intros (Hn & -> & Hd). induction ps as [|p ps IH]; [contradiction|]. destruct ps as [|q ps].
  - apply split_on_one, no_char_in, Hd. left; reflexivity.
  - cbn [joined]. rewrite split_on_app by (apply no_char_in, Hd; left; reflexivity). f_equal. apply IH; [discriminate|].
    intros x Hx. apply Hd. right; exact Hx.
Qed.
Lemma pieces_total d s : exists ps, pieces d s ps.
Proof.
  induction s as [|c s (ps & Hn & E & Hd)].
  - exists [[]]. split; [discriminate|]. split; [reflexivity|]. intros p [<-|[]] [].
  - destruct (N.eq_dec c d) as [->|Hc].
    + exists ([] :: ps). split; [discriminate|]. split.
      * rewrite E. destruct ps; [contradiction|reflexivity].
      * intros p [<-|Hp]; [intros []|apply Hd; exact Hp].
    + destruct ps as [|p ps]; [contradiction|]. exists ((c :: p) :: ps). split; [discriminate|]. split.
      * rewrite E. destruct ps; reflexivity.
      * intros x [<-|Hx]; [intros [H|H]; [congruence|exact (Hd p (or_introl eq_refl) H)]|apply Hd; right; exact Hx].
Qed.
Lemma pieces_iff d s ps : pieces d s ps <-> split_on d s = ps.
Proof.
  split; [apply pieces_split|]. intros <-. destruct (pieces_total d s) as (qs & Q). rewrite (pieces_split _ _ _ Q). exact Q.
Qed.
Lemma no_ws_in w : no_ws w = true <-> forall c, In c w -> is_ws c = false.
Proof.
  unfold no_ws. rewrite forallb_forall. split; intros H c Hc; specialize (H c Hc).
  - destruct (is_ws c); [discriminate H|reflexivity].
  - rewrite H. reflexivity.
Qed.
Lemma bw_split s ws : blank_words s ws -> split_ws s = ws.
Proof.
  induction 1 as [|c s ws Hc _ IH|w s ws Hn Hw Hs W IH].
  - reflexivity.
  - rewrite split_ws_skip by exact Hc. exact IH.
  - assert (Ww : word w = true) by (destruct w; [contradiction|]; apply (proj2 (no_ws_in _)); exact Hw).
    destruct s as [|c s].
    + rewrite app_nil_r, split_ws_one by exact Ww. cbn in IH. rewrite <- IH. reflexivity.
    + rewrite split_ws_app by assumption. f_equal. rewrite split_ws_skip in IH by exact Hs. exact IH.
Qed.
Lemma bw_total s : exists ws, blank_words s ws.
Proof.
  remember (length s) as n eqn:En. revert s En. induction n as [n IH] using (well_founded_induction Nat.lt_wf_0). intros s ->.
  destruct s as [|c s]; [exists []; constructor|].
  destruct (is_ws c) eqn:Ec.
  - destruct (IH (length s) ltac:(cbn; lia) s eq_refl) as (ws & W). exists ws. constructor; assumption.
  - destruct (span (fun x => negb (is_ws x)) s) as [a b] eqn:Es. destruct (span_parts _ _ _ _ Es) as (-> & Ha & Hb).
    destruct (IH (length b) ltac:(cbn; rewrite app_length; lia) b eq_refl) as (ws & W). exists ((c :: a) :: ws).
    change (c :: a ++ b) with ((c :: a) ++ b). constructor; [discriminate| |destruct b as [|d b]; [exact I|destruct (is_ws d); [reflexivity|discriminate Hb]]|exact W].
    intros x [<-|Hx]; [exact Ec|]. rewrite forallb_forall in Ha. specialize (Ha x Hx). destruct (is_ws x); [discriminate Ha|reflexivity].
Qed.
Lemma bw_iff s ws : blank_words s ws <-> split_ws s = ws.
Proof.
  split; [apply bw_split|]. intros <-. destruct (bw_total s) as (qs & Q). rewrite (bw_split _ _ Q). exact Q.
Qed.
Lemma two_parts d s a b : (exists p q more, pieces d s (p :: q :: more) /\ a = trim p /\ b = trim q) <->
  exists more, map trim (split_on d s) = a :: b :: more.
Proof.
  split.
  - intros (p & q & more & P & -> & ->). apply pieces_iff in P. rewrite P. exists (map trim more). reflexivity.
  - intros (more & E). destruct (split_on d s) as [|p [|q m]] eqn:Es; try discriminate E. injection E as <- <- _.
    exists p, q, m. split; [apply pieces_iff; exact Es|auto].
Qed.
Lemma setting_iff v k w : setting v k w <-> exists more, map trim (split_on 61 v) = k :: w :: more.
Proof. apply two_parts. Qed.
Lemma rate_parts_iff v k w : rate_parts v k w <-> exists more, map trim (split_on 47 v) = k :: w :: more.
Proof. apply two_parts. Qed.

Lemma fit_size_iff t n : fit_size t n <-> parse_size t = Ok n.
Proof. symmetry. apply (proj1 (C25_exact t)). Qed.
Lemma big_size_iff t : big_size t <-> parse_size t = Panic.
Proof. symmetry. apply (proj1 (proj2 (C25_exact t))). Qed.
Lemma fit_dur_iff t n : fit_dur t n <-> parse_dur t = Ok n.
Proof. symmetry. apply (proj1 (C26_exact t)). Qed.
Lemma big_dur_iff t : big_dur t <-> parse_dur t = Panic.
Proof. symmetry. apply (proj1 (proj2 (C26_exact t))). Qed.

(* what parse_rate does with the two parts *)
Lemma rate_cases s : parse_rate s =
  match map trim (split_on 47 s) with a :: b :: _ => do n <- parse_size a ; do d <- parse_dur b ; Ok (n, d) | _ => Err tt end.
Proof. destruct s; reflexivity. Qed.
Lemma rate_text_iff s r : rate_text s r <-> parse_rate s = Ok r.
Proof.
  rewrite rate_cases. split.
  - intros (a & b & P & Fa & Fb). apply rate_parts_iff in P as (more & ->). apply fit_size_iff in Fa. apply fit_dur_iff in Fb.
    rewrite Fa. cbn. rewrite Fb. cbn. destruct r; reflexivity.
  - destruct (map trim (split_on 47 s)) as [|a [|b more]] eqn:E; try discriminate.
    destruct (parse_size a) as [n|e|] eqn:Ea; cbn; try discriminate. destruct (parse_dur b) as [d|e|] eqn:Eb; cbn; try discriminate.
    intros H. injection H as <-. exists a, b. split; [apply rate_parts_iff; exists more; exact E|].
    split; [apply fit_size_iff; exact Ea|apply fit_dur_iff; exact Eb].
Qed.
Lemma big_rate_iff s : big_rate s <-> parse_rate s = Panic.
Proof.
  rewrite rate_cases. split.
  - intros (a & b & P & H). apply rate_parts_iff in P as (more & ->). destruct H as [H|[(n & H) Hb]].
    + apply big_size_iff in H. rewrite H. reflexivity.
    + apply fit_size_iff in H. apply big_dur_iff in Hb. rewrite H. cbn. rewrite Hb. reflexivity.
  - destruct (map trim (split_on 47 s)) as [|a [|b more]] eqn:E; try discriminate. intros H. exists a, b.
    split; [apply rate_parts_iff; exists more; exact E|].
    destruct (parse_size a) as [n|e|] eqn:Ea; cbn in H; try discriminate H.
    + right. split; [exists n; apply fit_size_iff; exact Ea|]. apply big_dur_iff. destruct (parse_dur b); [discriminate H|discriminate H|reflexivity].
    + left. apply big_size_iff. exact Ea.
Qed.

Lemma zone_args_snoc v : forall vs l r, zone_args (vs ++ [v]) l r = do (l', r') <- zone_args vs l r ; zone_args [v] l' r'.
Proof.
  induction vs as [|x vs IH]; intros l r; [reflexivity|]. cbn [app zone_args].
  destruct (map trim (split_on 61 x)) as [|k [|w m]]; try reflexivity.
  destruct (leqb k (txt "limit")).
  - destruct (parse_size w) as [n|e|]; cbn; [apply IH|reflexivity|reflexivity].
  - destruct (leqb k (txt "rate")); [|reflexivity]. destruct (parse_rate w) as [n|e|]; cbn; [apply IH|reflexivity|reflexivity].
Qed.
Lemma zone_one v l r l' r' : zone_args [v] l r = Ok (l', r') <->
  (exists w, setting v (txt "limit") w /\ fit_size w l' /\ r' = r) \/ (exists w, setting v (txt "rate") w /\ rate_text w r' /\ l' = l).
Proof.
  cbn [zone_args]. destruct (map trim (split_on 61 v)) as [|k [|w m]] eqn:E.
  1,2: split; [discriminate|]; intros [(w' & S0 & _)|(w' & S0 & _)]; apply setting_iff in S0 as (mm & S0); congruence.
  split.
  - destruct (leqb k (txt "limit")) eqn:Ek.
    + apply leqb_ok in Ek as ->. destruct (parse_size w) as [n|e|] eqn:En; cbn; try discriminate. intros H. injection H as <- <-.
      left. exists w. split; [apply setting_iff; exists m; exact E|]. split; [apply fit_size_iff; exact En|reflexivity].
    + destruct (leqb k (txt "rate")) eqn:Er; [|discriminate]. apply leqb_ok in Er as ->.
      destruct (parse_rate w) as [n|e|] eqn:En; cbn; try discriminate. intros H. injection H as <- <-.
      right. exists w. split; [apply setting_iff; exists m; exact E|]. split; [apply rate_text_iff; exact En|reflexivity].
  - intros [(w' & S0 & F & ->)|(w' & S0 & F & ->)]; apply setting_iff in S0 as (mm & S0); rewrite E in S0; injection S0 as -> -> _.
    + rewrite leqb_yes. apply fit_size_iff in F. rewrite F. reflexivity.
    + replace (leqb (txt "rate") (txt "limit")) with false by reflexivity. rewrite leqb_yes. apply rate_text_iff in F. rewrite F. reflexivity.
Qed.
Lemma zone_settings_iff dr vs : forall n r, zone_settings dr vs n r <-> zone_args vs 0 dr = Ok (n, r).
Proof.
  induction vs as [|v vs IH] using rev_ind; intros n r.
  - split.
    + intros H. inversion H as [|? ? ? ? ? ? ? ? ? E|? ? ? ? ? ? ? ? ? E]; subst; try reflexivity; destruct vs; discriminate.
    + intros H. injection H as <- <-. constructor.
  - rewrite zone_args_snoc. split.
    + intros H. inversion H as [E|vs' v' w n' n0 r' Z S0 F E|vs' v' w n' r' r0 Z S0 F E]; subst; [destruct vs; discriminate| |];
        apply app_inj_tail in E as [-> ->]; apply IH in Z; rewrite Z; cbn [rbind]; apply zone_one; [left|right]; exists w; auto.
    + destruct (zone_args vs 0 dr) as [[l0 r0]|e|] eqn:Ez; cbn [rbind]; try discriminate. intros H. apply zone_one in H.
      destruct H as [(w & S0 & F & ->)|(w & S0 & F & ->)].
      * eapply zs_limit; [apply IH; reflexivity|exact S0|exact F].
      * eapply zs_rate; [apply IH; reflexivity|exact S0|exact F].
Qed.
Lemma zone_exact dr s z : parse_zone dr s = Ok z <-> zone_text dr s z.
Proof.
  unfold parse_zone. split.
  - destruct (split_ws s) as [|key vs] eqn:E; [discriminate|]. destruct (zone_args vs 0 dr) as [[n r]|e|] eqn:Ez; cbn [rbind]; try discriminate.
    intros H. injection H as <-. exists key, vs, n, r. split; [apply bw_iff; exact E|]. split; [apply zone_settings_iff; exact Ez|reflexivity].
  - intros (key & vs & n & r & W & Z & ->). apply bw_iff in W. rewrite W. apply zone_settings_iff in Z. rewrite Z. reflexivity.
Qed.
Lemma big_setting_iff v l r : big_setting v <-> zone_args [v] l r = Panic.
Proof.
  cbn [zone_args]. destruct (map trim (split_on 61 v)) as [|k [|w m]] eqn:E.
  1,2: split; [|discriminate]; intros [(w' & S0 & _)|(w' & S0 & _)]; apply setting_iff in S0 as (mm & S0); congruence.
  split.
  - intros [(w' & S0 & F)|(w' & S0 & F)]; apply setting_iff in S0 as (mm & S0); rewrite E in S0; injection S0 as -> -> _.
    + rewrite leqb_yes. apply big_size_iff in F. rewrite F. reflexivity.
    + replace (leqb (txt "rate") (txt "limit")) with false by reflexivity. rewrite leqb_yes. apply big_rate_iff in F. rewrite F. reflexivity.
  - destruct (leqb k (txt "limit")) eqn:Ek.
    + apply leqb_ok in Ek as ->. destruct (parse_size w) as [n|e|] eqn:En; cbn; try discriminate. intros _.
      left. exists w. split; [apply setting_iff; exists m; exact E|apply big_size_iff; exact En].
    + destruct (leqb k (txt "rate")) eqn:Er; [|discriminate]. apply leqb_ok in Er as ->.
      destruct (parse_rate w) as [n|e|] eqn:En; cbn; try discriminate. intros _.
      right. exists w. split; [apply setting_iff; exists m; exact E|apply big_rate_iff; exact En].
Qed.
Lemma zone_crash_args dr vs : zone_args vs 0 dr = Panic <->
  exists vs1 v vs2 n r, vs = vs1 ++ v :: vs2 /\ zone_settings dr vs1 n r /\ big_setting v.
Proof.
  induction vs as [|v vs IH] using rev_ind.
  - split; [discriminate|]. intros (vs1 & v & vs2 & n & r & E & _). destruct vs1; discriminate E.
  - rewrite zone_args_snoc. split.
    + destruct (zone_args vs 0 dr) as [[l0 r0]|e|] eqn:Ez; cbn [rbind]; try discriminate.
      * intros H. apply big_setting_iff in H. exists vs, v, [], l0, r0. split; [reflexivity|]. split; [apply zone_settings_iff; exact Ez|exact H].
      * intros _. destruct (proj1 IH eq_refl) as (vs1 & x & vs2 & n & r & -> & Z & B). exists vs1, x, (vs2 ++ [v]), n, r.
        split; [rewrite <- app_assoc; reflexivity|auto].
    + intros (vs1 & x & vs2 & n & r & E & Z & B). destruct vs2 as [|y vs2 _] using rev_ind.
      * apply app_inj_tail in E as [-> ->]. apply zone_settings_iff in Z. rewrite Z. cbn [rbind]. apply big_setting_iff. exact B.
      * rewrite app_comm_cons, app_assoc in E. apply app_inj_tail in E as [-> ->].
        rewrite (proj2 IH); [reflexivity|]. exists vs1, x, vs2, n, r. auto.
Qed.

Lemma lreq_args_snoc v : forall vs z b, lreq_args (vs ++ [v]) z b = do r <- lreq_args vs z b ; lreq_args [v] (lr_zone r) (lr_burst r).
Proof.
  induction vs as [|x vs IH]; intros z b; [reflexivity|]. cbn [app lreq_args].
  destruct (map trim (split_on 61 x)) as [|k [|w m]]; try reflexivity.
  destruct (leqb k (txt "zone")); [apply IH|]. destruct (leqb k (txt "brust")); [|reflexivity].
  destruct (parse_uint u64_max w) as [n|]; [apply IH|reflexivity].
Qed.
Lemma lreq_one v z b r : lreq_args [v] z b = Ok r <->
  (exists w, setting v (txt "zone") w /\ r = LReq w b) \/ (exists w n, setting v (txt "brust") w /\ count w n /\ r = LReq z n).
Proof.
  cbn [lreq_args]. destruct (map trim (split_on 61 v)) as [|k [|w m]] eqn:E.
  1,2: split; [discriminate|]; intros [(w' & S0 & _)|(w' & n & S0 & _)]; apply setting_iff in S0 as (mm & S0); congruence.
  split.
  - destruct (leqb k (txt "zone")) eqn:Ek.
    + apply leqb_ok in Ek as ->. intros H. injection H as <-. left. exists w. split; [apply setting_iff; exists m; exact E|reflexivity].
    + destruct (leqb k (txt "brust")) eqn:Er; [|discriminate]. apply leqb_ok in Er as ->.
      destruct (parse_uint u64_max w) as [n|] eqn:En; [|discriminate]. intros H. injection H as <-.
      right. exists w, n. split; [apply setting_iff; exists m; exact E|]. split; [apply count_parse; exact En|reflexivity].
  - intros [(w' & S0 & ->)|(w' & n & S0 & F & ->)]; apply setting_iff in S0 as (mm & S0); rewrite E in S0; injection S0 as -> -> _.
    + rewrite leqb_yes. reflexivity.
    + replace (leqb (txt "brust") (txt "zone")) with false by reflexivity. rewrite leqb_yes. apply count_parse in F. rewrite F. reflexivity.
Qed.
Lemma lreq_settings_iff vs : forall z b, lreq_settings vs z b <-> lreq_args vs [] 0 = Ok (LReq z b).
Proof.
  induction vs as [|v vs IH] using rev_ind; intros z b.
  - split.
    + intros H. inversion H as [|? ? ? ? ? ? ? E|? ? ? ? ? ? ? ? ? E]; subst; try reflexivity; destruct vs; discriminate.
    + intros H. injection H as <- <-. constructor.
  - rewrite lreq_args_snoc. split.
    + intros H. inversion H as [E|? ? ? ? ? Z S0|? ? ? ? ? ? Z S0 F]; subst; [destruct vs; discriminate| |];
        match goal with E : _ ++ [_] = _ ++ [_] |- _ => apply app_inj_tail in E as [-> ->] end;
        apply IH in Z; rewrite Z; cbn [rbind lr_zone lr_burst]; apply lreq_one; [left; eexists; split; [exact S0|reflexivity]|].
      right. do 2 eexists. split; [exact S0|]. split; [exact F|reflexivity].
    + destruct (lreq_args vs [] 0) as [[z0 b0]|e|] eqn:Ez; cbn [rbind]; try discriminate. intros H. apply lreq_one in H.
      destruct H as [(w & S0 & E)|(w & n & S0 & F & E)]; injection E as -> ->.
      * eapply ls_zone; [apply IH; reflexivity|exact S0].
      * eapply ls_burst; [apply IH; reflexivity|exact S0|exact F].
Qed.
Lemma lreq_exact s r : parse_lreq s = Ok r <-> lreq_text s r.
Proof.
  unfold parse_lreq, lreq_text. destruct r as [z b]. cbn [lr_zone lr_burst]. split.
  - intros H. exists (split_on 32 s). split; [apply pieces_iff; reflexivity|apply lreq_settings_iff; exact H].
  - intros (vs & P & L). apply pieces_iff in P as <-. apply lreq_settings_iff. exact L.
Qed.

Lemma alike_upper a b : alike a b <-> upper a = upper b.
Proof. unfold alike, upper. destruct ((97 <=? a) && (a <=? 122)) eqn:A, ((97 <=? b) && (b <=? 122)) eqn:B; lia. Qed.
Lemma alike_all a b : Forall2 alike a b <-> map upper a = map upper b.
Proof.
  revert b. induction a as [|x a IH]; intros [|y b]; split; intros H; try (inversion H; fail); try constructor; try discriminate.
  - inversion H as [|? ? ? ? H1 H2]; subst. cbn. f_equal; [apply alike_upper; exact H1|apply IH; exact H2].
  - apply alike_upper. cbn in H. congruence.
  - apply IH. cbn in H. congruence.
Qed.
Lemma level_name_iff t l : level_name t l <-> parse_level t = Some l.
Proof.
  unfold level_name, parse_level. split.
  - intros (n & Hn & A). apply alike_all in A. rewrite A. cbn in Hn. destruct Hn as [E|[E|[E|[E|[E|[]]]]]]; injection E as <- <-; vm_compute; reflexivity.
  - intros H. assert (G : forall n k, In (n, k) levels -> map upper t = map upper n -> parse_level t = Some k -> level_name t k).
    { intros n k Hn Hu _. exists n. split; [exact Hn|apply alike_all; exact Hu]. }
    cbv zeta in H. fold (parse_level t) in G.
    destruct (leqb (map upper t) (txt "ERROR")) eqn:E1; [injection H as <-; apply leqb_ok in E1; exists (txt "error"); split; [cbn; tauto|apply alike_all; exact E1]|].
    destruct (leqb (map upper t) (txt "WARN")) eqn:E2; [injection H as <-; apply leqb_ok in E2; exists (txt "warn"); split; [cbn; tauto|apply alike_all; exact E2]|].
    destruct (leqb (map upper t) (txt "INFO")) eqn:E3; [injection H as <-; apply leqb_ok in E3; exists (txt "info"); split; [cbn; tauto|apply alike_all; exact E3]|].
    destruct (leqb (map upper t) (txt "DEBUG")) eqn:E4; [injection H as <-; apply leqb_ok in E4; exists (txt "debug"); split; [cbn; tauto|apply alike_all; exact E4]|].
    destruct (leqb (map upper t) (txt "TRACE")) eqn:E5; [injection H as <-; apply leqb_ok in E5; exists (txt "trace"); split; [cbn; tauto|apply alike_all; exact E5]|discriminate H].
Qed.
Lemma log_exact s l : parse_log s = Ok l <-> log_text s l.
Proof.
  unfold parse_log, log_text. split.
  - destruct (split_on 32 s) as [|a [|b more]] eqn:E; try discriminate. intros H. injection H as <-. cbn [l_name l_format l_level].
    exists more. split; [apply pieces_iff; exact E|]. destruct more as [|t [|u more]].
    + right. split; [reflexivity|]. intros t k X. discriminate X.
    + destruct (parse_level t) as [k|] eqn:Et.
      * left. exists t. split; [reflexivity|apply level_name_iff; exact Et].
      * right. split; [reflexivity|]. intros u k X L. injection X as <-. apply level_name_iff in L. congruence.
    + right. split; [reflexivity|]. intros v k X. discriminate X.
  - intros (more & P & L). apply pieces_iff in P. rewrite P. destruct l as [a b lv]. cbn [l_name l_format l_level] in *. do 2 f_equal.
    destruct L as [(t & -> & L)|[-> L]]; [apply level_name_iff in L; rewrite L; reflexivity|].
    destruct more as [|t [|u more]]; try reflexivity. destruct (parse_level t) as [k|] eqn:Et; [|reflexivity].
    destruct (L t k eq_refl). apply level_name_iff. exact Et.
Qed.

Lemma kind_bits b v bit : N.testbit (f_word b v) bit = true <-> N.testbit b bit = true \/ In v (kind_words bit).
Proof.
  assert (B0 : forall k, N.testbit (2 ^ k) bit = true <-> bit = k).
  { intros k. rewrite N.pow2_bits_eqb. rewrite N.eqb_eq. split; congruence. }
  assert (K : forall k, In v (kind_words k) -> k < 3).
  { intros k. unfold kind_words. destruct (N.eqb_spec k 0); [lia|]. destruct (N.eqb_spec k 1); [lia|]. destruct (N.eqb_spec k 2); [lia|]. intros []. }
  assert (One : forall k, In v (kind_words k) -> (N.testbit (N.lor b (2 ^ k)) bit = true <-> N.testbit b bit = true \/ In v (kind_words bit))).
  { intros k Hk. rewrite N.lor_spec, orb_true_iff, B0. split; (intros [H|H]; [left; exact H|]).
    - subst. right. exact Hk.
    - right. pose proof (K _ Hk) as A. pose proof (K _ H) as B1.
      assert (Ck : k = 0 \/ k = 1 \/ k = 2) by lia. assert (Cb : bit = 0 \/ bit = 1 \/ bit = 2) by lia.
      destruct Ck as [->|[->| ->]], Cb as [->|[->| ->]]; try reflexivity; exfalso; cbn in Hk, H;
        destruct Hk as [<-|[<-|[]]]; destruct H as [H|[H|[]]]; discriminate H. }
  unfold f_word. destruct (leqb v (txt "http")) eqn:E1; [apply leqb_ok in E1; apply (One 0); left; symmetry; exact E1|].
  destruct (leqb v (txt "HTTP")) eqn:E2; [apply leqb_ok in E2; apply (One 0); right; left; symmetry; exact E2|]. cbn [orb].
  destruct (leqb v (txt "https")) eqn:E3; [apply leqb_ok in E3; apply (One 1); left; symmetry; exact E3|].
  destruct (leqb v (txt "HTTPS")) eqn:E4; [apply leqb_ok in E4; apply (One 1); right; left; symmetry; exact E4|]. cbn [orb].
  destruct (leqb v (txt "socks5")) eqn:E5; [apply leqb_ok in E5; apply (One 2); left; symmetry; exact E5|].
  destruct (leqb v (txt "SOCKS5")) eqn:E6; [apply leqb_ok in E6; apply (One 2); right; left; symmetry; exact E6|]. cbn [orb].
  split; [auto|]. intros [H|H]; [exact H|]. pose proof (K _ H) as A. assert (Cb : bit = 0 \/ bit = 1 \/ bit = 2) by lia.
  destruct Cb as [->|[->| ->]]; cbn in H; destruct H as [<-|[<-|[]]]; try discriminate E1; try discriminate E2; try discriminate E3;
    try discriminate E4; try discriminate E5; discriminate E6.
Qed.
Lemma kinds_fold ws : forall b bit, N.testbit (fold_left f_word ws b) bit = true <-> N.testbit b bit = true \/ exists w, In w ws /\ In w (kind_words bit).
Proof.
  induction ws as [|w ws IH]; intros b bit; cbn [fold_left].
  - split; [auto|]. intros [H|(w & [] & _)]. exact H.
  - rewrite IH, kind_bits. split.
    + intros [[H|H]|(x & Hx & K)]; [left; exact H|right; exists w; split; [left; reflexivity|exact H]|right; exists x; split; [right; exact Hx|exact K]].
    + intros [H|(x & [<-|Hx] & K)]; [left; left; exact H|left; right; exact K|right; exists x; auto].
Qed.
Lemma kinds_exact s b : parse_flag s = Ok b <-> kinds_text s b.
Proof.
  unfold kinds_text. split.
  - intros H. assert (Hs : s <> []) by (intros ->; discriminate H). split; [exact Hs|]. destruct s as [|c s]; [contradiction|].
    injection H as <-. exists (split_ws (c :: s)). split; [apply bw_iff; reflexivity|]. intros bit. rewrite kinds_fold, N.bits_0.
    split; [intros [H|H]; [discriminate H|exact H]|auto].
  - intros (Hs & ws & W & B). apply bw_iff in W. destruct s as [|c s]; [contradiction|]. unfold parse_flag. rewrite W. f_equal.
    apply N.bits_inj. intros bit. apply eq_true_iff_eq. rewrite kinds_fold, B, N.bits_0. split; [intros [H|H]; [discriminate H|exact H]|auto].
Qed.
