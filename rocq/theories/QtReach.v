(* A tunnel can always come to rest. *)
From Coq Require Import String.
From Verif Require Import Base Text ProtModel ProtSpec ProtProofs ProtStream CsModel CsSpec CsProofs
  CsRoute CsOwn CcModel CcSpec CcProofs CcCreate TunSpec TunServer TunClient TunProofs TunMore TunFlow
  CcProps JoSpec JoProofs ReProofs QtSpec QtProofs.
Open Scope N_scope.

(* ---- what is sent is bytes -------------------------------------------------------- *)
Definition okb (b : bytes) : Prop := bytes_ok b = true.
Lemma okb_app a b : okb a -> okb b -> okb (a ++ b).
Proof. unfold okb. intros A B. rewrite bytes_ok_app, A, B. reflexivity. Qed.
Lemma okb_mod l : (forall x, In x l -> exists n, x = n mod 256) -> okb l.
Proof.
  intros H. unfold okb, bytes_ok. apply forallb_forall. intros x Hx. destruct (H x Hx) as (n & ->).
  unfold byte_ok. apply N.ltb_lt. apply N.mod_lt. discriminate.
Qed.
Lemma okb_be8 n : okb (be8 n).
Proof. apply okb_mod. intros x [<-|[]]. eexists; reflexivity. Qed.
Lemma okb_be16 n : okb (be16 n).
Proof. apply okb_mod. intros x [<-|[<-|[]]]; eexists; reflexivity. Qed.
Lemma okb_be24 n : okb (be24 n).
Proof. apply okb_mod. intros x [<-|[<-|[<-|[]]]]; eexists; reflexivity. Qed.
Lemma okb_be32 n : okb (be32 n).
Proof. apply okb_mod. intros x [<-|[<-|[<-|[<-|[]]]]]; eexists; reflexivity. Qed.
Lemma okb_header h : okb (header_encode h).
Proof. unfold header_encode. repeat apply okb_app; auto using okb_be8, okb_be24, okb_be32. Qed.
Lemma okb_seq (a b : wr) : okb (fst a) -> okb (fst b) -> okb (fst (wseq a b)).
Proof. unfold wseq. destruct a as [x [e|]], b as [y e']; cbn [fst snd]; auto using okb_app. Qed.
Lemma okb_short s : short_string s -> okb (fst (write_short_string s)).
Proof.
  intros [A _]. apply is_string_bytes in A. unfold write_short_string.
  repeat match goal with |- context [if ?x then _ else _] => destruct x end; cbn [fst]; try reflexivity;
    apply okb_app; auto using okb_be8.
Qed.
Lemma okb_encode f : fits f -> okb (fst (encode f)).
Proof.
  destruct f as [s d|s r|s d|s ms|u p]; cbn [fits encode].
  - intros [_ H]. unfold create_encode. cbn [fst]. apply okb_app; [apply okb_header|]. apply okb_app; [apply okb_be8|].
    destruct d; [|reflexivity]. apply is_string_bytes. apply H.
  - intros [_ H]. apply okb_seq; [apply okb_header|apply okb_short; exact H].
  - intros (_ & H & _). apply okb_app; [apply okb_header|exact H].
  - intros (_ & _ & H & _). unfold mapping_encode.
    assert (B : okb (fst (wseq (be16 (nlen ms mod 65536), None) (mappings_encode ms)))).
    { apply okb_seq; [apply okb_be16|]. induction H as [|m ms (A1 & A2 & A3 & _ & A4) _ IH]; [reflexivity|].
      cbn [mappings_encode]. apply okb_seq; [|exact IH]. unfold mapping_encode1.
      apply okb_seq; [apply okb_short; exact A1|]. apply okb_seq; [apply okb_short; exact A2|].
      apply okb_seq; [apply okb_short; exact A3|]. apply okb_seq; [apply okb_be16|].
      clear IH. induction A4 as [|r rs [R1 R2] _ IH]; [reflexivity|]. cbn [hrules_encode]. apply okb_seq; [|exact IH].
      unfold hrule_encode. apply okb_seq; [apply okb_app; apply okb_be8|].
      apply okb_seq; apply okb_short; assumption. }
    destruct (snd _); [reflexivity|]. apply okb_app; [apply okb_header|exact B].
  - intros [A B]. unfold token_encode. apply okb_seq; [apply okb_header|]. apply okb_seq; apply okb_short; assumption.
Qed.
Lemma okb_wire fs : Forall fits fs -> okb (wire fs).
Proof. induction 1 as [|f fs A _ IH]; [reflexivity|]. rewrite wire_cons. apply okb_app; [apply okb_encode; exact A|exact IH]. Qed.
Lemma okb_prefix a b : prefix a b -> okb b -> okb a.
Proof. intros [m ->] H. unfold okb in *. rewrite bytes_ok_app in H. apply andb_true_iff in H. exact (proj1 H). Qed.
Lemma okb_right a b : okb (a ++ b) -> okb b.
Proof. unfold okb. rewrite bytes_ok_app. intros H. apply andb_true_iff in H. exact (proj2 H). Qed.

(* ---- single steps ------------------------------------------------------------------- *)
Lemma evs_app a b : evs (a ++ b) = evs a ++ evs b.
Proof. apply flat_map_app. Qed.
Lemma kevs_app a b : kevs (a ++ b) = kevs a ++ kevs b.
Proof. apply flat_map_app. Qed.

(* decoding one frame, not refused *)
Lemma frame_step c st f z : s_phase st = PDecode -> decode_frame (s_rbuf st) = DFrame f z ->
  s_shut st = false -> s_shut (fst (step c st EvDecode)) = false ->
  let st' := fst (step c st EvDecode) in let o := snd (step c st EvDecode) in
  s_rbuf st' = z /\ (s_phase st' = PDecode \/ exists h g, s_phase st' = PBlocked h g) /\
  s_out st' = s_out st /\ s_work st' = s_work st /\ s_wbuf st' = s_wbuf st /\ written o = [] /\ bytes_read o = [].
Proof.
  intros Hp Hd Hs. cbn [step]. rewrite Hp, Hd. cbv zeta.
  assert (D : forall h g, let r := deliver h g (set_rbuf z st) in
     s_rbuf (fst r) = z /\ (s_phase (fst r) = PDecode \/ exists h g, s_phase (fst r) = PBlocked h g) /\
     s_out (fst r) = s_out st /\ s_work (fst r) = s_work st /\ s_wbuf (fst r) = s_wbuf st /\ written (snd r) = [] /\ bytes_read (snd r) = []).
  { intros h g. cbv zeta. unfold deliver. destruct (gone _ _); [|destruct (_ <? _)]; cbn; repeat split; eauto. }
  unfold handle. destruct f as [s d|s r|s d|s ms|u p]; cbn [s_verify set_rbuf];
    destruct (s_verify st) eqn:V; cbn [negb andb]; try (intros X; cbn in X; discriminate X);
    try (intros _; cbn; repeat split; auto; fail).
  - cbn [s_map set_rbuf]. destruct (lookup _ _ _) as [h|]; [|intros _; cbn; repeat split; auto].
    specialize (D h (FClose s r)). cbv zeta in D. destruct (deliver _ _ _). intros _. exact D.
  - cbn [s_map set_rbuf]. destruct (lookup _ _ _) as [h|]; [|intros _; cbn; repeat split; auto].
    specialize (D h (FData s d)). cbv zeta in D. destruct (deliver _ _ _). intros _. exact D.
  - destruct (check_succ c u p); [intros _; cbn; repeat split; auto|]. intros X. cbn in X. discriminate X.
Qed.
Lemma kframe_step st f z : k_phase st = KDecode -> decode_frame (k_rbuf st) = DFrame f z ->
  let st' := fst (kstep st KStep) in let o := snd (kstep st KStep) in
  k_rbuf st' = z /\ (k_phase st' = KDecode \/ (exists g, k_phase st' = KStuck g) \/ exists r, k_phase st' = KEnd r) /\
  (k_out st' = k_out st \/ exists s dom, f = FCreate s dom /\ choose (k_maps st) (asked dom) = None) /\
  ((exists g, k_phase st' = KStuck g) -> exists s dom, f = FCreate s dom /\ choose (k_maps st) (asked dom) = None) /\
  k_wbuf st' = k_wbuf st /\ kwritten o = [] /\ kbytes_read o = [] /\ kdecoded o = [f].
Proof.
  intros Hp Hd. cbn [kstep]. rewrite Hp, Hd. cbv zeta.
  assert (D : forall h g, let r := ktry_send h g (kset_rbuf z st) in
     k_rbuf (fst r) = z /\ k_phase (fst r) = KDecode /\
     k_out (fst r) = k_out st /\ k_wbuf (fst r) = k_wbuf st /\ kwritten (snd r) = [] /\ kbytes_read (snd r) = [] /\ kdecoded (snd r) = []).
  { intros h g. cbv zeta. unfold ktry_send. destruct (_ || _); cbn; repeat split; auto. }
  assert (Ns : forall g, KDecode <> KStuck g) by discriminate.
  destruct f as [s dom|s r|s d|s ms|u p]; cbn [khandle].
  - change (k_maps (kset_rbuf z st)) with (k_maps st).
    change (match dom with Some d => d | None => [] end) with (asked dom).
    destruct (choose (k_maps st) (asked dom)) as [m|] eqn:Ec.
    + destruct (is_proxy m); [|destruct (m_local m)]; cbn; rewrite Hp; repeat split; auto; intros [g X]; discriminate X.
    + destruct (_ <? _); cbn; rewrite ?Hp; repeat split; eauto 6.
  - destruct (s =? 0); [cbn; rewrite Hp; repeat split; auto; intros [g X]; discriminate X|].
    destruct (lookup _ _ _) as [h|]; [|cbn; rewrite Hp; repeat split; auto; intros [g X]; discriminate X].
    specialize (D h (FClose s r)). cbv zeta in D. destruct (ktry_send _ _ _) as [st1 o1]. cbn [fst snd] in *.
    destruct D as (D1 & D2 & D3 & D4 & D5 & D6 & D7). cbn [kwritten kbytes_read kdecoded flat_map app].
    fold (kdecoded o1). rewrite D2, D7. repeat split; auto. intros [g X]; discriminate X.
  - destruct (lookup _ _ _) as [h|]; [|cbn; rewrite Hp; repeat split; auto; intros [g X]; discriminate X].
    specialize (D h (FData s d)). cbv zeta in D. destruct (ktry_send _ _ _) as [st1 o1]. cbn [fst snd] in *.
    destruct D as (D1 & D2 & D3 & D4 & D5 & D6 & D7). cbn [kwritten kbytes_read kdecoded flat_map app].
    fold (kdecoded o1). rewrite D2, D7. repeat split; auto. intros [g X]; discriminate X.
  - cbn; rewrite Hp; repeat split; auto; intros [g X]; discriminate X.
  - cbn; repeat split; eauto. intros [g X]; discriminate X.
Qed.
(* a stuck client has been asked for what it does not have *)
Definition refusing (ms : list mapping) (st : kst) (tr : list keff) : Prop :=
  k_maps st = ms /\
  forall g, k_phase st = KStuck g -> exists s dom, In (FCreate s dom) (kdecoded tr) /\ choose ms (asked dom) = None.
Lemma stuck_step st e g : k_phase (fst (kstep st e)) = KStuck g ->
  k_phase st = KStuck g \/ (k_phase st = KDecode /\ e = KStep /\ exists f z, decode_frame (k_rbuf st) = DFrame f z).
Proof.
  assert (Z : k_phase (fst (ktunnel_closed st)) = KEnd KClosed).
  { unfold ktunnel_closed. destruct (ksay_bye _ _). reflexivity. }
  destruct e as [s|s d|s r|h|h|h| | |b| |n| |]; cbn [kstep]; intros H.
  - left. destruct (_ <? _); exact H.
  - left. destruct (_ <? _); exact H.
  - left. destruct (_ <? _); exact H.
  - left. destruct (k_box st h); [exact H|destruct (kgone h st); exact H].
  - left. exact H.
  - left. destruct (lookup _ _ _); [destruct (_ <? _)|]; exact H.
  - destruct (k_phase st) eqn:Hp; cbn [fst] in H; try (left; congruence). destruct (k_work st) as [|[[? ?] ?] ?]; cbn in H; congruence.
  - destruct (k_phase st) eqn:Hp; cbn [fst] in H; try (left; congruence). destruct (k_out st); cbn in H; congruence.
  - destruct (k_phase st) eqn:Hp; try (destruct b; cbn [fst] in H; left; congruence). destruct b; [congruence|cbn in H; congruence].
  - destruct (k_phase st) eqn:Hp; cbn [fst] in H; try (left; congruence).
  - destruct (k_phase st) eqn:Hp; cbn [fst] in H; try (left; congruence). destruct (k_wbuf st); cbn in H; congruence.
  - destruct (k_phase st) eqn:Hp; cbn [fst] in H; try (left; congruence). destruct (k_wbuf st); cbn in H; congruence.
  - destruct (k_phase st) eqn:Hp; cbn [fst] in H; try (left; congruence).
    + destruct (decode_frame (k_rbuf st)) as [|f rest|e rest|] eqn:Hd; cbn in H; try congruence.
      right. repeat split. exists f, rest. reflexivity.
    + destruct (_ <? _); cbn in H; left; congruence.
Qed.
Lemma refusing_reach c ms es st tr : krun (k_init c ms) es = (st, tr) -> refusing ms st tr.
Proof.
  apply (krun_reach (refusing ms)).
  - split; [reflexivity|]. intros g H. cbn in H. destruct (snd (hello c ms)); discriminate.
  - intros st0 tr0 e [M H]. split; [rewrite (proj2 (step_contacts st0 e)); exact M|].
    intros g Hg. rewrite kdecoded_app2. destruct (stuck_step st0 e g Hg) as [E|(Hp & -> & f & z & Hd)].
    + destruct (H g E) as (s & dom & A & B). exists s, dom. split; [apply in_app_iff; left; exact A|exact B].
    + destruct (kframe_step st0 f z Hp Hd) as (_ & _ & _ & K & _ & _ & _ & D).
      destruct K as (s & dom & -> & C); [exists g; exact Hg|]. exists s, dom. rewrite D, <- M.
      split; [apply in_app_iff; right; left; reflexivity|exact C].
Qed.

(* ---- what the client drops ----------------------------------------------------------- *)
Definition target (f : frame) : option N :=
  match f with FData s _ | FClose s _ => Some s | _ => None end.
Lemma loses st f z h g : k_phase st = KDecode -> decode_frame (k_rbuf st) = DFrame f z ->
  In (QLost h g) (snd (kstep st KStep)) ->
  exists s, target f = Some s /\ lookup N.eqb s (k_map st) = Some h /\ (kgone h st = true \/ handler_cap <= nlen (k_box st h)).
Proof.
  intros Hp Hd. cbn [kstep]. rewrite Hp, Hd.
  assert (D : forall s h' f', lookup N.eqb s (k_map st) = Some h' -> In (QLost h g) (snd (ktry_send h' f' (kset_rbuf z st))) ->
     lookup N.eqb s (k_map st) = Some h /\ (kgone h st = true \/ handler_cap <= nlen (k_box st h))).
  { intros s h' f' L. unfold ktry_send. change (kgone h' (kset_rbuf z st)) with (kgone h' st). change (k_box (kset_rbuf z st)) with (k_box st).
    destruct (kgone h' st) eqn:G; cbn [orb]; [|destruct (nlen (k_box st h') <? handler_cap) eqn:B; cbn [negb]].
    - intros [E|[]]. injection E as -> _. split; [exact L|left; exact G].
    - intros [E|[]]. discriminate E.
    - intros [E|[]]. injection E as -> _. split; [exact L|right; apply N.ltb_ge; exact B]. }
  destruct f as [s dom|s r|s d|s m|u p]; cbn [khandle target].
  - change (k_maps (kset_rbuf z st)) with (k_maps st). destruct (choose _ _) as [m|].
    + destruct (is_proxy m); [|destruct (m_local m)]; cbn; intuition discriminate.
    + destruct (_ <? _); cbn; intuition discriminate.
  - destruct (s =? 0); [cbn; intuition discriminate|]. change (k_map (kset_rbuf z st)) with (k_map st).
    destruct (lookup N.eqb s (k_map st)) as [h'|] eqn:L; [|cbn; intuition discriminate].
    specialize (D s h' (FClose s r) L). destruct (ktry_send _ _ _) as [st1 o]. cbn [snd] in *. intros [E|E]; [discriminate E|].
    exists s. split; [reflexivity|]. exact (D E).
  - change (k_map (kset_rbuf z st)) with (k_map st).
    destruct (lookup N.eqb s (k_map st)) as [h'|] eqn:L; [|cbn; intuition discriminate].
    specialize (D s h' (FData s d) L). destruct (ktry_send _ _ _) as [st1 o]. cbn [snd] in *. intros [E|E]; [discriminate E|].
    exists s. split; [reflexivity|]. exact (D E).
  - cbn. intuition discriminate.
  - cbn. intuition discriminate.
Qed.
(* a service that has gone stays gone, and has gone for a reason *)
Lemma ksay_bye_gone m : forall st, k_gone (fst (ksay_bye m st)) = k_gone st.
Proof.
  induction m as [|[s h] m IH]; intros st; [reflexivity|]. cbn [ksay_bye]. destruct (_ || _); [apply IH|].
  specialize (IH (kset_box h (k_box st h ++ [FClose s []]) st)). destruct (ksay_bye m _) as [st2 o]. exact IH.
Qed.
Lemma gone_step st e : k_gone (fst (kstep st e)) = k_gone st \/
  exists h, k_gone (fst (kstep st e)) = h :: k_gone st /\ (e = KGone h \/ e = KConnErr h \/ exists s, In (QNoAddr s h) (snd (kstep st e))).
Proof.
  assert (T : forall h' f' st0, k_gone (fst (ktry_send h' f' st0)) = k_gone st0).
  { intros h' f' st0. unfold ktry_send. destruct (_ || _); reflexivity. }
  assert (C : k_gone (fst (ktunnel_closed st)) = k_gone st).
  { unfold ktunnel_closed. pose proof (ksay_bye_gone (k_map st) st) as B. destruct (ksay_bye (k_map st) st) as [st2 o]. exact B. }
  destruct e as [s|s d|s r|h'|h'|h'| | |b| |n| |]; cbn [kstep].
  - destruct (_ <? _); left; reflexivity.
  - destruct (_ <? _); left; reflexivity.
  - destruct (_ <? _); left; reflexivity.
  - destruct (k_box st h'); [left; reflexivity|]. destruct (kgone h' st); left; reflexivity.
  - right. exists h'. split; [reflexivity|left; reflexivity].
  - destruct (lookup _ _ _) as [s|]; [|left; reflexivity]. destruct (_ <? _); [|left; reflexivity].
    right. exists h'. split; [reflexivity|right; left; reflexivity].
  - destruct (k_phase st); try (left; reflexivity). destruct (k_work st) as [|[[s d] h'] q]; left; reflexivity.
  - destruct (k_phase st); try (left; reflexivity). destruct (k_out st); left; reflexivity.
  - destruct (k_phase st); try (left; reflexivity). destruct b; left; [exact C|reflexivity].
  - destruct (k_phase st); left; try reflexivity. exact C.
  - destruct (k_phase st); try (left; reflexivity). destruct (k_wbuf st); left; reflexivity.
  - destruct (k_phase st); try (left; reflexivity). destruct (k_wbuf st); left; reflexivity.
  - destruct (k_phase st); try (left; reflexivity); [|destruct (_ <? _); left; reflexivity].
    destruct (decode_frame (k_rbuf st)) as [|f z|e z|]; try (left; reflexivity).
    destruct f as [s dom|s r|s d|s m|u p]; cbn [khandle]; try (left; reflexivity).
    + destruct (choose _ _) as [m|]; [|destruct (_ <? _); left; reflexivity].
      destruct (is_proxy m); [left; reflexivity|]. destruct (m_local m); [left; reflexivity|].
      right. exists (k_next st). split; [reflexivity|]. right. right. exists s. right. right. left. reflexivity.
    + destruct (s =? 0); [left; reflexivity|]. destruct (lookup _ _ _) as [h'|]; [|left; reflexivity].
      specialize (T h' (FClose s r) (kset_rbuf z st)). destruct (ktry_send _ _ _). left. exact T.
    + destruct (lookup _ _ _) as [h'|]; [|left; reflexivity].
      specialize (T h' (FData s d) (kset_rbuf z st)). destruct (ktry_send _ _ _). left. exact T.
Qed.
Lemma gone_stays st e h : kgone h st = true -> kgone h (fst (kstep st e)) = true.
Proof.
  unfold kgone. intros H. destruct (gone_step st e) as [-> |(h' & -> & _)]; [exact H|]. cbn [existsb]. rewrite H. apply orb_true_r.
Qed.
Lemma gone_why c ms h : forall es st tr, krun (k_init c ms) es = (st, tr) -> kgone h st = true ->
  In (KGone h) es \/ In (KConnErr h) es \/ exists s, In (QNoAddr s h) tr.
Proof.
  intros es. induction es as [|e es IH] using rev_ind; intros st tr R G.
  - injection R as <- _. discriminate G.
  - rewrite TunClient.krun_app, krun_cons in R. destruct (krun (k_init c ms) es) as [st1 tr1]. cbn [fst snd krun] in R.
    injection R as <- <-. rewrite app_nil_r. unfold kgone in G.
    assert (Old : kgone h st1 = true -> In (KGone h) (es ++ [e]) \/ In (KConnErr h) (es ++ [e]) \/ exists s, In (QNoAddr s h) (tr1 ++ snd (kstep st1 e))).
    { intros G1. destruct (IH _ _ eq_refl G1) as [A|[A|(s & A)]]; [left|right; left|right; right; exists s]; apply in_app_iff; left; exact A. }
    destruct (gone_step st1 e) as [E|(h' & E & Why)]; rewrite E in G; [exact (Old G)|].
    cbn [existsb] in G. apply orb_true_iff in G as [G|G]; [|exact (Old G)]. apply N.eqb_eq in G. subst h'.
    destruct Why as [->|[->|(s & A)]]; [left|right; left|right; right; exists s]; apply in_app_iff; right; try (left; reflexivity). exact A.
Qed.
(* ---- going on ------------------------------------------------------------------------ *)
Section Go.
Context (c : creds) (ms : list mapping).
Definition sv (w : list jev) : sst := fst (run c (s_init c) (evs w)).
Definition cl (w : list jev) : kst := fst (krun (k_init c ms) (kevs w)).
Definition well (w : list jev) : Prop := whole c ms w /\ unbroken w.
Definition on (w w2 : list jev) : Prop := exists w', Forall goes_on w' /\ w2 = w ++ w' /\ well w2 /\
  (creates_first c w -> creates_first c w2) /\ (forall h, kgone h (cl w) = true -> kgone h (cl w2) = true) /\
  (forall h f, In (QLost h f) (kseen c ms w2) -> In (QLost h f) (kseen c ms w) \/ kgone h (cl w2) = true).

Lemma on_refl w : well w -> on w w.
Proof. intros H. exists []. split; [constructor|]. split; [symmetry; apply app_nil_r|]. split; [exact H|]. split; [auto|]. split; [auto|]. intros h f L. left. exact L. Qed.
Lemma on_trans a b d : on a b -> on b d -> on a d.
Proof.
  intros (x & X & -> & _ & C1 & G1 & L1) (y & Y & -> & W & C2 & G2 & L2). exists (x ++ y). split; [apply Forall_app; split; assumption|].
  split; [symmetry; apply app_assoc|]. split; [exact W|]. split; [auto|]. split; [auto|].
  intros h f H. destruct (L2 h f H) as [H1|H1]; [|right; exact H1]. destruct (L1 h f H1) as [H2|H2]; [left; exact H2|right; auto].
Qed.
Lemma on_well a b : on a b -> well b.
Proof. intros (x & _ & _ & W & _). exact W. Qed.

Lemma sv_run w : run c (s_init c) (evs w) = (sv w, seen c w).
Proof. unfold sv, seen. destruct (run _ _ _). reflexivity. Qed.
Lemma cl_run w : krun (k_init c ms) (kevs w) = (cl w, kseen c ms w).
Proof. unfold cl, kseen. destruct (krun _ _). reflexivity. Qed.
Lemma at_server w e : let w2 := w ++ [AtServer e] in sv w2 = fst (step c (sv w) e) /\ seen c w2 = seen c w ++ snd (step c (sv w) e) /\
  cl w2 = cl w /\ kseen c ms w2 = kseen c ms w /\ kevs w2 = kevs w.
Proof.
  cbv zeta. unfold sv, seen, cl, kseen. rewrite evs_app, kevs_app. cbn [evs kevs flat_map app]. rewrite app_nil_r.
  rewrite run_app, run_cons. cbn [run fst snd]. rewrite app_nil_r. repeat split.
Qed.
Lemma at_client w e : let w2 := w ++ [AtClient e] in cl w2 = fst (kstep (cl w) e) /\ kseen c ms w2 = kseen c ms w ++ snd (kstep (cl w) e) /\
  sv w2 = sv w /\ seen c w2 = seen c w /\ evs w2 = evs w.
Proof.
  cbv zeta. unfold sv, seen, cl, kseen. rewrite evs_app, kevs_app. cbn [evs kevs flat_map app]. rewrite app_nil_r.
  rewrite TunClient.krun_app, krun_cons. cbn [krun fst snd]. rewrite app_nil_r. repeat split.
Qed.

(* data leaves after requests, and nothing is dropped for a service that is there *)
Definition polite (w : list jev) (j : jev) : Prop :=
  match j with
  | AtServer EvOut => s_work (sv w) = []
  | AtServer _ => True
  | AtClient e => forall h f, In (QLost h f) (snd (kstep (cl w) e)) -> kgone h (cl w) = true
  end.
Lemma on_one w j : well w -> goes_on j -> polite w j ->
  (match j with AtServer e => ev_ok e | AtClient e => kev_ok e end) ->
  prefix (bytes_read (seen c (w ++ [j]))) (kwritten (kseen c ms (w ++ [j]))) ->
  prefix (kbytes_read (kseen c ms (w ++ [j]))) (written (seen c (w ++ [j]))) -> on w (w ++ [j]).
Proof.
  intros [W U] G Po O P1 P2. exists [j]. split; [constructor; [exact G|constructor]|]. split; [reflexivity|].
  split; [|split; [|split]]; [split| | |].
  - destruct W as [A B C D E]. constructor; try assumption.
    + intros p q Eq. destruct q as [|x q] using rev_ind.
      * rewrite app_nil_r in Eq. subst p. split; assumption.
      * rewrite app_assoc in Eq. apply app_inj_tail in Eq as [Eq _]. exact (A p q Eq).
    + rewrite kevs_app. apply Forall_app. split; [exact D|]. destruct j; constructor; [exact O|constructor].
    + rewrite evs_app. apply Forall_app. split; [exact E|]. destruct j; constructor; [exact O|constructor].
  - apply Forall_app. split; [exact U|]. constructor; [|constructor]. intros X.
    destruct j as [[| | | | | | |[|]| | | |]|[| | | | | | | |[|]| | | |]]; cbn in *; contradiction.
  - intros Cf p q E. destruct q as [|x q _] using rev_ind.
    + apply app_inj_tail in E as [<- ->]. exact Po.
    + rewrite app_comm_cons, app_assoc in E. apply app_inj_tail in E as [E _]. exact (Cf p q E).
  - intros h Hh. destruct j as [e|e].
    + destruct (at_server w e) as (_ & _ & -> & _). exact Hh.
    + destruct (at_client w e) as (-> & _). apply gone_stays, Hh.
  - intros h f Hl. destruct j as [e|e].
    + destruct (at_server w e) as (_ & _ & _ & E & _). rewrite E in Hl. left. exact Hl.
    + destruct (at_client w e) as (E1 & E & _). rewrite E in Hl. apply in_app_iff in Hl as [Hl|Hl]; [left; exact Hl|right].
      rewrite E1. apply gone_stays, (Po h f), Hl.
Qed.
Lemma now w : well w -> prefix (bytes_read (seen c w)) (kwritten (kseen c ms w)) /\
  prefix (kbytes_read (kseen c ms w)) (written (seen c w)).
Proof. intros [W _]. exact (w_causal _ _ _ W w [] (eq_sym (app_nil_r w))). Qed.
Lemma written_app' a b : written (a ++ b) = written a ++ written b.
Proof. apply flat_map_app. Qed.
Lemma on_server w e : well w -> goes_on (AtServer e) -> polite w (AtServer e) -> ev_ok e -> bytes_read (snd (step c (sv w) e)) = [] ->
  on w (w ++ [AtServer e]).
Proof.
  intros W G Po O B. destruct (now w W) as [P1 P2]. destruct (at_server w e) as (_ & E1 & _ & E2 & _).
  apply on_one; try assumption; rewrite E1, E2.
  - rewrite bytes_read_app, B, app_nil_r. exact P1.
  - rewrite written_app'. eapply prefix_trans; [exact P2|apply prefix_app].
Qed.
Lemma on_client w e : well w -> goes_on (AtClient e) -> polite w (AtClient e) -> kev_ok e -> kbytes_read (snd (kstep (cl w) e)) = [] ->
  on w (w ++ [AtClient e]).
Proof.
  intros W G Po O B. destruct (now w W) as [P1 P2]. destruct (at_client w e) as (_ & E1 & _ & E2 & _).
  apply on_one; try assumption; rewrite E1, E2.
  - rewrite kwritten_app. eapply prefix_trans; [exact P1|apply prefix_app].
  - rewrite kbytes_read_app', B, app_nil_r. exact P2.
Qed.

(* both ends are alive *)
Lemma well_link w : well w -> link c ms (k_init c ms) (kevs w) (evs w) (cl w) (kseen c ms w) (sv w) (seen c w).
Proof. intros [W _]. exact (tunnel_link _ _ _ _ _ _ _ _ (whole_tunnel _ _ _ W)). Qed.
Lemma in_evs w e : In e (evs w) -> In (AtServer e) w.
Proof. intros H. apply in_flat_map in H as (j & A & B). destruct j; cbn in B; [|contradiction]. destruct B as [<-|[]]. exact A. Qed.
Lemma in_kevs w e : In e (kevs w) -> In (AtClient e) w.
Proof. intros H. apply in_flat_map in H as (j & A & B). destruct j; cbn in B; [contradiction|]. destruct B as [<-|[]]. exact A. Qed.
Lemma sv_shut w : well w -> s_shut (sv w) = false.
Proof. intros W. apply (shut_reach c _ _ _ (sv_run w)). exact (honest_not_refused _ _ _ _ _ _ _ _ _ (well_link w W)). Qed.
Lemma sv_alive w : well w -> forall r, s_phase (sv w) <> PEnd r.
Proof.
  intros W r H. pose proof (well_link w W) as L. destruct W as [_ U]. unfold unbroken in U. rewrite Forall_forall in U.
  destruct (server_ends _ _ _ _ _ _ _ _ _ L (evs w) [] (eq_sym (app_nil_r _))) with (r := r) as [_ [X|X]].
  - intros X. exact (U _ (in_evs _ _ X) I).
  - exact H.
  - exact (U _ (in_evs _ _ X) I).
  - exact (U _ (in_evs _ _ X) I).
Qed.
Lemma cl_alive w : well w -> forall r, k_phase (cl w) <> KEnd r.
Proof.
  intros W r H. pose proof (well_link w W) as L. destruct W as [_ U]. unfold unbroken in U. rewrite Forall_forall in U.
  destruct (client_ends _ _ _ _ _ _ _ _ _ L (kevs w) [] (eq_sym (app_nil_r _))) with (r := r) as [_ [X|X]].
  - exact H.
  - exact (U _ (in_kevs _ _ X) I).
  - exact (U _ (in_kevs _ _ X) I).
Qed.
Lemma asked_for w s dom : well w -> In (FCreate s dom) (kdecoded (kseen c ms w)) -> choose ms (asked dom) <> None.
Proof.
  intros W H E. pose proof (well_link w W) as L.
  destruct (honest_create _ _ _ _ _ _ _ _ _ L s dom H) as (v & d & e1 & e2 & -> & _ & Wn).
  assert (Wn' : wanted ms v d) by (eapply wanted_public; eassumption).
  destruct (wanted_chosen ms v d Wn') as (m & X). cbn [asked] in E. congruence.
Qed.
Lemma cl_free w : well w -> forall g, k_phase (cl w) <> KStuck g.
Proof.
  intros W g H. destruct (refusing_reach c ms _ _ _ (cl_run w)) as [_ R]. destruct (R g H) as (s & dom & A & B).
  exact (asked_for w s dom W A B).
Qed.
Lemma sv_decodes w : well w -> decode_frame (s_rbuf (sv w)) = DWait \/ exists f z, decode_frame (s_rbuf (sv w)) = DFrame f z.
Proof.
  intros W. pose proof (well_link w W) as L.
  destruct (route_phase_reach c _ _ _ (sv_run w)) as [_ (_ & _ & r & R1 & R2)].
  specialize (R2 (sv_shut w W) (sv_alive w W)). subst r.
  assert (P : prefix (bytes_read (seen c w)) (wire (greeting c ms ++ kpushed (k_init c ms) (kevs w)))).
  { eapply prefix_trans; [exact (l_up _ _ _ _ _ _ _ _ _ L)|eapply up_wire; exact L]. }
  destruct (good_next _ _ _ _ (up_fits _ _ _ _ _ _ _ _ _ L) P R1) as [E|(f & z & _ & E)]; [left; exact E|right; eauto].
Qed.
Lemma sv_quiet w : well w -> s_phase (sv w) = PSelect -> decode_frame (s_rbuf (sv w)) = DWait.
Proof. intros W. destruct (route_phase_reach c _ _ _ (sv_run w)) as [_ (_ & R & _)]. apply R. exact (sv_shut w W). Qed.
Lemma cl_ph w : kph (cl w) (kseen c ms w).
Proof.
  generalize (cl_run w). apply (krun_reach kph).
  - split; [reflexivity|]. exists []. split; [constructor|reflexivity].
  - intros. apply kph_step; assumption.
Qed.
Lemma cl_decodes w : well w -> decode_frame (k_rbuf (cl w)) = DWait \/ exists f z, decode_frame (k_rbuf (cl w)) = DFrame f z.
Proof.
  intros W. pose proof (well_link w W) as L. destruct (cl_ph w) as (_ & r & R1 & R2).
  specialize (R2 (cl_alive w W)). subst r.
  assert (P : prefix (kbytes_read (kseen c ms w)) (wire (pushed c (s_init c) (evs w)))).
  { eapply prefix_trans; [exact (l_down _ _ _ _ _ _ _ _ _ L)|eapply down_wire; exact L]. }
  destruct (good_next _ _ _ _ (down_fits _ _ _ _ _ _ _ _ _ L) P R1) as [E|(f & z & _ & E)]; [left; exact E|right; eauto].
Qed.
Lemma cl_quiet w : k_phase (cl w) = KSelect -> decode_frame (k_rbuf (cl w)) = DWait.
Proof. exact (proj1 (cl_ph w)). Qed.

(* -- the server takes all it has read -- *)
Record sv_same (w w2 : list jev) : Prop := SvSame {
  ss_out : s_out (sv w2) = s_out (sv w);
  ss_work : s_work (sv w2) = s_work (sv w);
  ss_wbuf : s_wbuf (sv w2) = s_wbuf (sv w);
  ss_written : written (seen c w2) = written (seen c w);
  ss_read : bytes_read (seen c w2) = bytes_read (seen c w);
  ss_client : kevs w2 = kevs w
}.
Lemma sv_same_refl w : sv_same w w.
Proof. constructor; reflexivity. Qed.
Lemma sv_same_trans a b d : sv_same a b -> sv_same b d -> sv_same a d.
Proof. intros [A1 A2 A3 A4 A5 A6] [B1 B2 B3 B4 B5 B6]. constructor; congruence. Qed.
Lemma sv_same_one w e : s_out (fst (step c (sv w) e)) = s_out (sv w) -> s_work (fst (step c (sv w) e)) = s_work (sv w) ->
  s_wbuf (fst (step c (sv w) e)) = s_wbuf (sv w) -> written (snd (step c (sv w) e)) = [] -> bytes_read (snd (step c (sv w) e)) = [] ->
  sv_same w (w ++ [AtServer e]).
Proof.
  intros A B C D E. destruct (at_server w e) as (F & G & _ & _ & H).
  constructor; rewrite ?F, ?G, ?written_app', ?bytes_read_app, ?D, ?E, ?app_nil_r; assumption || reflexivity.
Qed.

Definition blocked (st : sst) : nat := match s_phase st with PBlocked _ _ => 1 | _ => 0 end.
Lemma deliver_settles h g st : s_phase st = PBlocked h g -> (gone h st = true \/ nlen (s_box st h) < handler_cap) ->
  let r := deliver h g st in s_phase (fst r) = PDecode /\ s_rbuf (fst r) = s_rbuf st /\ s_out (fst r) = s_out st /\
  s_work (fst r) = s_work st /\ s_wbuf (fst r) = s_wbuf st /\ written (snd r) = [] /\ bytes_read (snd r) = [].
Proof.
  intros _ H. cbv zeta. unfold deliver. destruct (gone h st) eqn:G; [repeat split|].
  destruct H as [H|H]; [discriminate|]. apply N.ltb_lt in H. rewrite H. repeat split.
Qed.
Lemma make_room h : forall n w, well w -> gone h (sv w) = false -> (List.length (s_box (sv w) h) <= n)%nat ->
  exists w2, on w w2 /\ sv_same w w2 /\ s_phase (sv w2) = s_phase (sv w) /\ s_rbuf (sv w2) = s_rbuf (sv w) /\
    s_box (sv w2) h = [] /\ s_gone (sv w2) = s_gone (sv w) /\ (forall h', s_box (sv w) h' = [] -> s_box (sv w2) h' = []) /\
    binds (seen c w2) = binds (seen c w).
Proof.
  induction n as [|n IH]; intros w W G L.
  - exists w. split; [apply on_refl; exact W|]. split; [apply sv_same_refl|]. repeat split; auto.
    destruct (s_box (sv w) h); [reflexivity|cbn in L; lia].
  - destruct (s_box (sv w) h) as [|f q] eqn:Eb.
    + exists w. split; [apply on_refl; exact W|]. split; [apply sv_same_refl|]. repeat split; auto.
    + assert (St : step c (sv w) (EvConsume h) = (set_box h q (sv w), [OGot h f])) by (cbn [step]; rewrite Eb, G; reflexivity).
      assert (O : on w (w ++ [AtServer (EvConsume h)])) by (apply on_server; [exact W|exact I|exact I|exact I|rewrite St; reflexivity]).
      destruct (at_server w (EvConsume h)) as (F & F2 & _). rewrite St in F, F2. cbn [fst snd] in F, F2.
      assert (Sm : sv_same w (w ++ [AtServer (EvConsume h)])) by (apply sv_same_one; rewrite St; reflexivity).
      destruct (IH (w ++ [AtServer (EvConsume h)])) as (w2 & A & B & C & D & E & X & Y & Z).
      * exact (on_well _ _ O).
      * rewrite F. exact G.
      * rewrite F. cbn [s_box set_box]. rewrite N.eqb_refl. cbn in L. lia.
      * exists w2. split; [exact (on_trans _ _ _ O A)|]. split; [exact (sv_same_trans _ _ _ Sm B)|].
        rewrite C, D, X, Z, F, F2, binds_app. cbn [binds flat_map]. rewrite app_nil_r. repeat split; [exact E|].
        intros h' H. apply Y. rewrite F. cbn [s_box set_box].
        destruct (h' =? h) eqn:Eh; [|exact H]. apply N.eqb_eq in Eh. subst h'. congruence.
Qed.
Lemma sv_settles : forall n w, well w -> (2 * List.length (s_rbuf (sv w)) + blocked (sv w) <= n)%nat ->
  exists w2, on w w2 /\ sv_same w w2 /\ s_phase (sv w2) = PSelect.
Proof.
  induction n as [n IH] using lt_wf_ind; intros w W L.
  destruct (s_phase (sv w)) as [| |h g|r] eqn:Hp.
  - exists w. split; [apply on_refl; exact W|]. split; [apply sv_same_refl|exact Hp].
  - destruct (sv_decodes w W) as [Hd|(f & z & Hd)].
    + assert (St : step c (sv w) EvDecode = (set_phase PSelect (sv w), [])) by (cbn [step]; rewrite Hp, Hd; reflexivity).
      exists (w ++ [AtServer EvDecode]). destruct (at_server w EvDecode) as (F & _). rewrite St in F.
      split; [apply on_server; [exact W|exact I|exact I|exact I|rewrite St; reflexivity]|].
      split; [apply sv_same_one; rewrite St; reflexivity|]. rewrite F. reflexivity.
    + assert (Sh : s_shut (fst (step c (sv w) EvDecode)) = false).
      { destruct (shut_step c (sv w) EvDecode) as [E|E]; [rewrite E; exact (sv_shut w W)|].
        exfalso. assert (O : bytes_read (snd (step c (sv w) EvDecode)) = []).
        { cbn [step]. rewrite Hp, Hd. unfold handle.
          assert (D : forall h g, bytes_read (snd (deliver h g (set_rbuf z (sv w)))) = []).
          { intros h g. unfold deliver. destruct (gone _ _); [|destruct (_ <? _)]; reflexivity. }
          destruct f as [s d|s r|s d|s ms0|u p]; cbn [s_verify set_rbuf]; destruct (s_verify (sv w)); cbn [negb andb]; try reflexivity;
            try (cbn [s_map set_rbuf]; destruct (lookup _ _ _) as [h|]; [|reflexivity];
                 match goal with |- context [deliver h ?g ?x] => specialize (D h g); destruct (deliver h g x) end; exact D).
          destruct (check_succ c u p); reflexivity. }
        pose proof (on_server w EvDecode W I I I O) as On.
        pose proof (honest_not_refused _ _ _ _ _ _ _ _ _ (well_link _ (on_well _ _ On))) as R.
        destruct (at_server w EvDecode) as (_ & G & _). rewrite G, refused_app in R. apply app_eq_nil in R as [_ R]. contradiction. }
      destruct (frame_step c (sv w) f z Hp Hd (sv_shut w W) Sh) as (A1 & A2 & A3 & A4 & A5 & A6 & A7).
      pose proof (on_server w EvDecode W I I I A7) as O. destruct (at_server w EvDecode) as (F & _).
      pose proof (decode_shorter _ _ _ Hd) as Sr.
      destruct (IH (2 * List.length z + 1)%nat) with (w := w ++ [AtServer EvDecode]) as (w2 & B & C & D).
      * lia.
      * exact (on_well _ _ O).
      * rewrite F, A1. unfold blocked. destruct (s_phase (fst (step c (sv w) EvDecode))); lia.
      * exists w2. split; [exact (on_trans _ _ _ O B)|]. split; [|exact D].
        exact (sv_same_trans _ _ _ (sv_same_one w EvDecode A3 A4 A5 A6 A7) C).
  - unfold blocked in L. rewrite Hp in L.
    assert (Go : forall w1, on w w1 -> sv_same w w1 -> s_phase (sv w1) = PBlocked h g -> s_rbuf (sv w1) = s_rbuf (sv w) ->
       (gone h (sv w1) = true \/ nlen (s_box (sv w1) h) < handler_cap) -> exists w2, on w w2 /\ sv_same w w2 /\ s_phase (sv w2) = PSelect).
    { intros w1 O1 S1 P1 R1 Rm. destruct (deliver_settles h g (sv w1) P1 Rm) as (B1 & B2 & B3 & B4 & B5 & B6 & B7).
      assert (St : step c (sv w1) EvDecode = deliver h g (sv w1)) by (cbn [step]; rewrite P1; reflexivity).
      rewrite <- St in *. pose proof (on_server w1 EvDecode (on_well _ _ O1) I I I B7) as O2.
      destruct (at_server w1 EvDecode) as (F & _).
      destruct (IH (2 * List.length (s_rbuf (sv w)))%nat) with (w := w1 ++ [AtServer EvDecode]) as (w2 & X & Y & Z).
      - lia.
      - exact (on_well _ _ O2).
      - rewrite F. unfold blocked. rewrite B1, B2, R1. lia.
      - exists w2. split; [exact (on_trans _ _ _ (on_trans _ _ _ O1 O2) X)|]. split; [|exact Z].
        exact (sv_same_trans _ _ _ (sv_same_trans _ _ _ S1 (sv_same_one w1 EvDecode B3 B4 B5 B6 B7)) Y). }
    destruct (gone h (sv w)) eqn:Hg.
    + apply (Go w); [apply on_refl; exact W|apply sv_same_refl|exact Hp|reflexivity|left; exact Hg].
    + destruct (make_room h _ w W Hg (le_n _)) as (w1 & A & B & C & D & E & _).
      apply (Go w1); [exact A|exact B|rewrite C; exact Hp|exact D|right; rewrite E; reflexivity].
  - destruct (sv_alive w W r Hp).
Qed.

(* -- the server sends all it has -- *)
Lemma sv_pauses w : well w -> s_phase (sv w) = PDecode -> decode_frame (s_rbuf (sv w)) = DWait ->
  on w (w ++ [AtServer EvDecode]) /\ sv_same w (w ++ [AtServer EvDecode]) /\ sv (w ++ [AtServer EvDecode]) = set_phase PSelect (sv w).
Proof.
  intros W Hp Hd. assert (St : step c (sv w) EvDecode = (set_phase PSelect (sv w), [])) by (cbn [step]; rewrite Hp, Hd; reflexivity).
  destruct (at_server w EvDecode) as (F & _). rewrite St in F.
  split; [apply on_server; [exact W|exact I|exact I|exact I|rewrite St; reflexivity]|].
  split; [apply sv_same_one; rewrite St; reflexivity|exact F].
Qed.
(* one event of the select loop and back to it *)
Lemma sv_turn w e st' o : well w -> s_phase (sv w) = PSelect -> goes_on (AtServer e) -> polite w (AtServer e) -> ev_ok e ->
  step c (sv w) e = (after_select st', o) -> s_shut st' = false -> s_rbuf st' = s_rbuf (sv w) -> bytes_read o = [] ->
  exists w2, on w w2 /\ kevs w2 = kevs w /\ sv w2 = set_phase PSelect (after_select st') /\ bytes_read (seen c w2) = bytes_read (seen c w).
Proof.
  intros W Hp G Po O St Sh Rb Br.
  assert (O1 : on w (w ++ [AtServer e])) by (apply on_server; [exact W|exact G|exact Po|exact O|rewrite St; exact Br]).
  destruct (at_server w e) as (F & F2 & _ & _ & F3). rewrite St in F, F2. cbn [fst snd] in F, F2.
  destruct (sv_pauses (w ++ [AtServer e])) as (O2 & S2 & E2).
  - exact (on_well _ _ O1).
  - rewrite F. unfold after_select. cbn. rewrite Sh. reflexivity.
  - rewrite F. unfold after_select. cbn. rewrite Rb. exact (sv_quiet w W Hp).
  - eexists. split; [exact (on_trans _ _ _ O1 O2)|]. split; [rewrite (ss_client _ _ S2); exact F3|].
    rewrite E2, F. split; [reflexivity|]. rewrite (ss_read _ _ S2), F2, bytes_read_app, Br, app_nil_r. reflexivity.
Qed.
Lemma sv_work_out : forall n w, well w -> s_phase (sv w) = PSelect -> (List.length (s_work (sv w)) <= n)%nat ->
  exists w2, on w w2 /\ kevs w2 = kevs w /\ s_phase (sv w2) = PSelect /\ s_work (sv w2) = [] /\ bytes_read (seen c w2) = bytes_read (seen c w).
Proof.
  induction n as [|n IH]; intros w W Hp L; destruct (s_work (sv w)) as [|[[s d] h] q] eqn:Ew;
    try (exists w; split; [apply on_refl; exact W|repeat split; assumption]); [cbn in L; lia|].
  destruct (sv_turn w EvWork (set_wbuf (s_wbuf (sv w) ++ fst (encode (FCreate s d))) (set_map (insert N.eqb s h (s_map (sv w))) (set_work q (sv w)))) [OBind s h])
    as (w1 & O1 & K1 & E1 & R1); try assumption; try exact I; try reflexivity.
  { cbn [step]. rewrite Hp, Ew. reflexivity. }
  { exact (sv_shut w W). }
  destruct (IH w1) as (w2 & O2 & K2 & P2 & W2 & R2).
  - exact (on_well _ _ O1).
  - rewrite E1. reflexivity.
  - rewrite E1. cbn. cbn in L. lia.
  - exists w2. split; [exact (on_trans _ _ _ O1 O2)|]. repeat split; congruence.
Qed.
Lemma sv_out_out : forall n w, well w -> s_phase (sv w) = PSelect -> s_work (sv w) = [] -> (List.length (s_out (sv w)) <= n)%nat ->
  exists w2, on w w2 /\ kevs w2 = kevs w /\ s_phase (sv w2) = PSelect /\ s_work (sv w2) = [] /\ s_out (sv w2) = [] /\
    bytes_read (seen c w2) = bytes_read (seen c w).
Proof.
  induction n as [|n IH]; intros w W Hp Hw L; destruct (s_out (sv w)) as [|f q] eqn:Ew;
    try (exists w; split; [apply on_refl; exact W|repeat split; assumption]); [cbn in L; lia|].
  destruct (sv_turn w EvOut (set_wbuf (s_wbuf (sv w) ++ fst (encode f)) (set_out q (sv w))) [])
    as (w1 & O1 & K1 & E1 & R1); try assumption; try exact I; try reflexivity.
  { cbn [step]. rewrite Hp, Ew. reflexivity. }
  { exact (sv_shut w W). }
  destruct (IH w1) as (w2 & O2 & K2 & P2 & W2 & X2 & R2).
  - exact (on_well _ _ O1).
  - rewrite E1. reflexivity.
  - rewrite E1. exact Hw.
  - rewrite E1. cbn. cbn in L. lia.
  - exists w2. split; [exact (on_trans _ _ _ O1 O2)|]. repeat split; congruence.
Qed.
Lemma sv_sends w : well w -> s_phase (sv w) = PSelect ->
  exists w2, on w w2 /\ kevs w2 = kevs w /\ s_phase (sv w2) = PSelect /\ s_work (sv w2) = [] /\ s_out (sv w2) = [] /\ s_wbuf (sv w2) = [].
Proof.
  intros W Hp. destruct (sv_work_out _ w W Hp (le_n _)) as (w1 & O1 & K1 & P1 & W1 & _).
  destruct (sv_out_out _ w1 (on_well _ _ O1) P1 W1 (le_n _)) as (w2 & O2 & K2 & P2 & W2 & X2 & _).
  pose proof (on_trans _ _ _ O1 O2) as O. destruct (s_wbuf (sv w2)) as [|x b] eqn:Eb.
  - exists w2. split; [exact O|]. repeat split; congruence.
  - pose proof (sv_shut w2 (on_well _ _ O2)) as Sh.
    destruct (sv_turn w2 (EvWrite (nlen (s_wbuf (sv w2)))) (set_wbuf [] (sv w2)) [OWrote (s_wbuf (sv w2))])
      as (w3 & O3 & K3 & E3 & _); try assumption; try exact I; try reflexivity.
    { exact (on_well _ _ O2). }
    { cbn [step]. rewrite P2, Eb. rewrite N.min_id. unfold nlen. rewrite Nat2N.id, skipn_all, firstn_all.
      cbn [s_wbuf set_wbuf]. rewrite Sh. reflexivity. }
    exists w3. split; [exact (on_trans _ _ _ O O3)|]. rewrite E3. split; [congruence|]. repeat split; assumption.
Qed.

(* -- the client takes all it has read -- *)
Record cl_same (w w2 : list jev) : Prop := ClSame {
  cs_out : k_out (cl w2) = k_out (cl w);
  cs_wbuf : k_wbuf (cl w2) = k_wbuf (cl w);
  cs_written : kwritten (kseen c ms w2) = kwritten (kseen c ms w);
  cs_read : kbytes_read (kseen c ms w2) = kbytes_read (kseen c ms w);
  cs_server : evs w2 = evs w
}.
Lemma cl_same_refl w : cl_same w w.
Proof. constructor; reflexivity. Qed.
Lemma cl_same_trans a b d : cl_same a b -> cl_same b d -> cl_same a d.
Proof. intros [A1 A2 A3 A4 A5] [B1 B2 B3 B4 B5]. constructor; congruence. Qed.
Lemma cl_same_one w e : k_out (fst (kstep (cl w) e)) = k_out (cl w) -> k_wbuf (fst (kstep (cl w) e)) = k_wbuf (cl w) ->
  kwritten (snd (kstep (cl w) e)) = [] -> kbytes_read (snd (kstep (cl w) e)) = [] -> cl_same w (w ++ [AtClient e]).
Proof.
  intros A B D E. destruct (at_client w e) as (F & G & _ & _ & H).
  constructor; rewrite ?F, ?G, ?kwritten_app, ?kbytes_read_app', ?D, ?E, ?app_nil_r; assumption || reflexivity.
Qed.
Lemma cl_pauses w : well w -> k_phase (cl w) = KDecode -> decode_frame (k_rbuf (cl w)) = DWait ->
  on w (w ++ [AtClient KStep]) /\ cl_same w (w ++ [AtClient KStep]) /\ cl (w ++ [AtClient KStep]) = kset_phase KSelect (cl w).
Proof.
  intros W Hp Hd. assert (St : kstep (cl w) KStep = (kset_phase KSelect (cl w), [])) by (cbn [kstep]; rewrite Hp, Hd; reflexivity).
  destruct (at_client w KStep) as (F & _). rewrite St in F.
  split; [apply on_client; [exact W|exact I|cbn [polite]; rewrite St; intros ? ? []|exact I|rewrite St; reflexivity]|].
  split; [apply cl_same_one; rewrite St; reflexivity|exact F].
Qed.
Lemma kmake_room h : forall n w, well w -> kgone h (cl w) = false -> (List.length (k_box (cl w) h) <= n)%nat ->
  exists w2, on w w2 /\ cl_same w w2 /\ k_phase (cl w2) = k_phase (cl w) /\ k_rbuf (cl w2) = k_rbuf (cl w) /\
    k_box (cl w2) h = [] /\ k_gone (cl w2) = k_gone (cl w) /\ k_map (cl w2) = k_map (cl w) /\
    (forall h', k_box (cl w) h' = [] -> k_box (cl w2) h' = []) /\ kbinds (kseen c ms w2) = kbinds (kseen c ms w).
Proof.
  induction n as [|n IH]; intros w W G L.
  - exists w. split; [apply on_refl; exact W|]. split; [apply cl_same_refl|]. repeat split; auto.
    destruct (k_box (cl w) h); [reflexivity|cbn in L; lia].
  - destruct (k_box (cl w) h) as [|f q] eqn:Eb.
    + exists w. split; [apply on_refl; exact W|]. split; [apply cl_same_refl|]. repeat split; auto.
    + assert (St : kstep (cl w) (KConsume h) = (kset_box h q (cl w), [QGot h f])) by (cbn [kstep]; rewrite Eb, G; reflexivity).
      assert (O : on w (w ++ [AtClient (KConsume h)])).
      { apply on_client; [exact W|exact I|cbn [polite]; rewrite St; intros ? ? [H|[]]; discriminate H|exact I|rewrite St; reflexivity]. }
      destruct (at_client w (KConsume h)) as (F & F2 & _). rewrite St in F, F2. cbn [fst snd] in F, F2.
      assert (Sm : cl_same w (w ++ [AtClient (KConsume h)])) by (apply cl_same_one; rewrite St; reflexivity).
      destruct (IH (w ++ [AtClient (KConsume h)])) as (w2 & A & B & C & D & E & X & M & Y & Z).
      * exact (on_well _ _ O).
      * rewrite F. exact G.
      * rewrite F. cbn [k_box kset_box]. rewrite N.eqb_refl. cbn in L. lia.
      * exists w2. split; [exact (on_trans _ _ _ O A)|]. split; [exact (cl_same_trans _ _ _ Sm B)|].
        rewrite C, D, X, M, Z, F, F2, kbinds_app. cbn [kbinds flat_map]. rewrite app_nil_r. repeat split; [exact E|].
        intros h' H. apply Y. rewrite F. cbn [k_box kset_box].
        destruct (h' =? h) eqn:Eh; [|exact H]. apply N.eqb_eq in Eh. subst h'. congruence.
Qed.
(* room for the next frame, so that taking it drops nothing *)
Lemma cl_room w f z : well w -> k_phase (cl w) = KDecode -> decode_frame (k_rbuf (cl w)) = DFrame f z ->
  exists w2, on w w2 /\ cl_same w w2 /\ k_phase (cl w2) = KDecode /\ k_rbuf (cl w2) = k_rbuf (cl w) /\ polite w2 (AtClient KStep).
Proof.
  intros W Hp Hd.
  assert (Stay : polite w (AtClient KStep) -> exists w2, on w w2 /\ cl_same w w2 /\ k_phase (cl w2) = KDecode /\
    k_rbuf (cl w2) = k_rbuf (cl w) /\ polite w2 (AtClient KStep)).
  { intros P. exists w. split; [apply on_refl; exact W|]. split; [apply cl_same_refl|]. repeat split; assumption. }
  destruct (target f) as [s|] eqn:Et; [destruct (lookup N.eqb s (k_map (cl w))) as [h|] eqn:El; [destruct (kgone h (cl w)) eqn:Eg|]|].
  - apply Stay. intros h' g H. destruct (loses _ f z _ _ Hp Hd H) as (s' & A & B & _). congruence.
  - destruct (kmake_room h _ w W Eg (le_n _)) as (w2 & A & B & C & D & E & X & M & _).
    exists w2. split; [exact A|]. split; [exact B|]. split; [congruence|]. split; [exact D|].
    intros h' g H. destruct (loses (cl w2) f z h' g) as (s' & A1 & A2 & A3); [congruence|congruence|exact H|].
    assert (h' = h) as -> by congruence. destruct A3 as [A3|A3]; [exact A3|]. rewrite E in A3. destruct A3. reflexivity.
  - apply Stay. intros h' g H. destruct (loses _ f z _ _ Hp Hd H) as (s' & A & B & _). congruence.
  - apply Stay. intros h' g H. destruct (loses _ f z _ _ Hp Hd H) as (s' & A & B & _). congruence.
Qed.
Lemma cl_settles : forall n w, well w -> (List.length (k_rbuf (cl w)) <= n)%nat ->
  exists w2, on w w2 /\ cl_same w w2 /\ k_phase (cl w2) = KSelect.
Proof.
  induction n as [n IH] using lt_wf_ind; intros w W L.
  destruct (k_phase (cl w)) as [| |g|r] eqn:Hp.
  - exists w. split; [apply on_refl; exact W|]. split; [apply cl_same_refl|exact Hp].
  - destruct (cl_decodes w W) as [Hd|(f & z & Hd)].
    + destruct (cl_pauses w W Hp Hd) as (A & B & C). exists (w ++ [AtClient KStep]). split; [exact A|]. split; [exact B|].
      rewrite C. reflexivity.
    + destruct (cl_room w f z W Hp Hd) as (w1 & O1 & S1 & Hp1 & R1 & Po).
      rewrite <- R1 in Hd, L. clear Hp R1.
      enough (Q : exists w2, on w1 w2 /\ cl_same w1 w2 /\ k_phase (cl w2) = KSelect).
      { destruct Q as (w2 & A & B & C). exists w2. split; [exact (on_trans _ _ _ O1 A)|]. split; [exact (cl_same_trans _ _ _ S1 B)|exact C]. }
      clear S1. apply on_well in O1. clear W. rename O1 into W, Hp1 into Hp. clear w. rename w1 into w.
      destruct (kframe_step (cl w) f z Hp Hd) as (A1 & _ & A3 & _ & A5 & A6 & A7 & A8).
      pose proof (on_client w KStep W I Po I A7) as O. destruct (at_client w KStep) as (F & F2 & _).
      assert (A3' : k_out (fst (kstep (cl w) KStep)) = k_out (cl w)).
      { destruct A3 as [A3|(s & dom & -> & X)]; [exact A3|]. exfalso.
        rewrite (proj1 (refusing_reach c ms _ _ _ (cl_run w))) in X.
        apply (asked_for _ s dom (on_well _ _ O)); [|exact X]. rewrite F2, kdecoded_app2, A8. apply in_app_iff. right. left. reflexivity. }
      pose proof (decode_shorter _ _ _ Hd) as Sr.
      destruct (IH (List.length z)) with (w := w ++ [AtClient KStep]) as (w2 & B & C & D).
      * lia.
      * exact (on_well _ _ O).
      * rewrite F, A1. apply le_n.
      * exists w2. split; [exact (on_trans _ _ _ O B)|]. split; [|exact D].
        exact (cl_same_trans _ _ _ (cl_same_one w KStep A3' A5 A6 A7) C).
  - destruct (cl_free w W g Hp).
  - destruct (cl_alive w W r Hp).
Qed.
(* -- the client reads all that was sent -- *)
Lemma cl_reads w : well w -> k_phase (cl w) = KSelect ->
  exists w2, on w w2 /\ evs w2 = evs w /\ k_phase (cl w2) = KSelect /\ kbytes_read (kseen c ms w2) = written (seen c w2).
Proof.
  intros W Hp. destruct (now w W) as [P1 [m Em]]. destruct m as [|x m].
  - exists w. split; [apply on_refl; exact W|]. repeat split; [exact Hp|]. rewrite Em. symmetry. apply app_nil_r.
  - assert (St : kstep (cl w) (KRead (x :: m)) = (kset_phase KDecode (kset_rbuf (k_rbuf (cl w) ++ x :: m) (cl w)), [QRead (x :: m)]))
      by (cbn [kstep]; rewrite Hp; reflexivity).
    destruct (at_client w (KRead (x :: m))) as (F & F2 & _ & F3 & F4). rewrite St in F, F2. cbn [fst snd] in F, F2.
    assert (Rd : kbytes_read (kseen c ms (w ++ [AtClient (KRead (x :: m))])) = written (seen c (w ++ [AtClient (KRead (x :: m))]))).
    { rewrite F2, F3, kbytes_read_app', Em. cbn [kbytes_read flat_map]. rewrite app_nil_r. reflexivity. }
    assert (Ok : okb (x :: m)).
    { apply (okb_right (kbytes_read (kseen c ms w))). rewrite <- Em. pose proof (well_link w W) as L.
      apply (okb_prefix _ (wire (pushed c (s_init c) (evs w)))); [eapply down_wire; exact L|].
      apply okb_wire. eapply down_fits; exact L. }
    assert (O : on w (w ++ [AtClient (KRead (x :: m))])).
    { apply on_one; [exact W|exact I|cbn [polite]; rewrite St; intros h g [H|[]]; discriminate H|exact Ok| |].
      - rewrite F3, F2, kwritten_app. eapply prefix_trans; [exact P1|apply prefix_app].
      - rewrite Rd. apply prefix_refl. }
    destruct (cl_settles _ _ (on_well _ _ O) (le_n _)) as (w2 & O2 & S2 & P2).
    exists w2. split; [exact (on_trans _ _ _ O O2)|]. split; [rewrite (cs_server _ _ S2); exact F4|]. split; [exact P2|].
    rewrite (cs_read _ _ S2), Rd. unfold seen. rewrite (cs_server _ _ S2). reflexivity.
Qed.
(* -- the client sends all it has -- *)
Lemma cl_turn w e st' o : well w -> k_phase (cl w) = KSelect -> goes_on (AtClient e) -> kev_ok e ->
  kstep (cl w) e = (kset_phase KDecode st', o) -> k_rbuf st' = k_rbuf (cl w) -> kbytes_read o = [] -> (forall h f, ~ In (QLost h f) o) ->
  exists w2, on w w2 /\ evs w2 = evs w /\ cl w2 = kset_phase KSelect (kset_phase KDecode st') /\ kbytes_read (kseen c ms w2) = kbytes_read (kseen c ms w).
Proof.
  intros W Hp G O St Rb Br Nl.
  assert (O1 : on w (w ++ [AtClient e])) by (apply on_client; [exact W|exact G|cbn [polite]; rewrite St; intros h f H; destruct (Nl h f H)|exact O|rewrite St; exact Br]).
  destruct (at_client w e) as (F & F2 & _ & _ & F3). rewrite St in F, F2. cbn [fst snd] in F, F2.
  destruct (cl_pauses (w ++ [AtClient e])) as (O2 & S2 & E2).
  - exact (on_well _ _ O1).
  - rewrite F. reflexivity.
  - rewrite F. cbn. rewrite Rb. exact (cl_quiet w Hp).
  - eexists. split; [exact (on_trans _ _ _ O1 O2)|]. split; [rewrite (cs_server _ _ S2); exact F3|].
    rewrite E2, F. split; [reflexivity|]. rewrite (cs_read _ _ S2), F2, kbytes_read_app', Br, app_nil_r. reflexivity.
Qed.
Lemma cl_out_out : forall n w, well w -> k_phase (cl w) = KSelect -> (List.length (k_out (cl w)) <= n)%nat ->
  exists w2, on w w2 /\ evs w2 = evs w /\ k_phase (cl w2) = KSelect /\ k_out (cl w2) = [] /\
    kbytes_read (kseen c ms w2) = kbytes_read (kseen c ms w).
Proof.
  induction n as [|n IH]; intros w W Hp L; destruct (k_out (cl w)) as [|f q] eqn:Ew;
    try (exists w; split; [apply on_refl; exact W|repeat split; assumption]); [cbn in L; lia|].
  destruct (cl_turn w KOut (kset_wbuf (k_wbuf (cl w) ++ fst (encode f)) (kset_out q (cl w))) [])
    as (w1 & O1 & K1 & E1 & R1); try assumption; try exact I; try reflexivity.
  { cbn [kstep]. rewrite Hp, Ew. reflexivity. }
  { intros h g []. }
  destruct (IH w1) as (w2 & O2 & K2 & P2 & X2 & R2).
  - exact (on_well _ _ O1).
  - rewrite E1. reflexivity.
  - rewrite E1. cbn. cbn in L. lia.
  - exists w2. split; [exact (on_trans _ _ _ O1 O2)|]. repeat split; congruence.
Qed.
Lemma cl_sends w : well w -> k_phase (cl w) = KSelect ->
  exists w2, on w w2 /\ evs w2 = evs w /\ k_phase (cl w2) = KSelect /\ k_out (cl w2) = [] /\ k_wbuf (cl w2) = [] /\
    kbytes_read (kseen c ms w2) = kbytes_read (kseen c ms w).
Proof.
  intros W Hp. destruct (cl_out_out _ w W Hp (le_n _)) as (w2 & O & K2 & P2 & X2 & R2).
  destruct (k_wbuf (cl w2)) as [|x b] eqn:Eb.
  - exists w2. split; [exact O|]. repeat split; congruence.
  - destruct (cl_turn w2 (KWrite (nlen (k_wbuf (cl w2)))) (kset_wbuf [] (cl w2)) [QWrote (k_wbuf (cl w2))])
      as (w3 & O3 & K3 & E3 & R3); try assumption; try exact I; try reflexivity.
    { exact (on_well _ _ O). }
    { cbn [kstep]. rewrite P2, Eb. rewrite N.min_id. unfold nlen. rewrite Nat2N.id, skipn_all, firstn_all. reflexivity. }
    { intros h g [H|[]]. discriminate H. }
    exists w3. split; [exact (on_trans _ _ _ O O3)|]. rewrite E3. split; [congruence|]. split; [reflexivity|]. split; [exact X2|].
    split; [reflexivity|congruence].
Qed.
(* -- the server reads all that was sent -- *)
Lemma sv_reads w : well w -> s_phase (sv w) = PSelect ->
  exists w2, on w w2 /\ kevs w2 = kevs w /\ s_phase (sv w2) = PSelect /\ bytes_read (seen c w2) = kwritten (kseen c ms w2) /\
    s_work (sv w2) = s_work (sv w) /\ s_out (sv w2) = s_out (sv w) /\ s_wbuf (sv w2) = s_wbuf (sv w) /\ written (seen c w2) = written (seen c w).
Proof.
  intros W Hp. destruct (now w W) as [[m Em] P2]. destruct m as [|x m].
  - exists w. split; [apply on_refl; exact W|]. repeat split; [exact Hp|]. rewrite Em. symmetry. apply app_nil_r.
  - assert (St : step c (sv w) (EvRead (x :: m)) = (after_select (set_rbuf (s_rbuf (sv w) ++ x :: m) (sv w)), [ORead (x :: m)]))
      by (cbn [step]; rewrite Hp; reflexivity).
    destruct (at_server w (EvRead (x :: m))) as (F & F2 & _ & F3 & F4). rewrite St in F, F2. cbn [fst snd] in F, F2.
    assert (Rd : bytes_read (seen c (w ++ [AtServer (EvRead (x :: m))])) = kwritten (kseen c ms (w ++ [AtServer (EvRead (x :: m))]))).
    { rewrite F2, F3, bytes_read_app, Em. cbn [bytes_read flat_map]. rewrite app_nil_r. reflexivity. }
    assert (Ok : okb (x :: m)).
    { apply (okb_right (bytes_read (seen c w))). rewrite <- Em. pose proof (well_link w W) as L.
      apply (okb_prefix _ (wire (greeting c ms ++ kpushed (k_init c ms) (kevs w)))); [eapply up_wire; exact L|].
      apply okb_wire. eapply up_fits; exact L. }
    assert (O : on w (w ++ [AtServer (EvRead (x :: m))])).
    { apply on_one; [exact W|exact I|exact I|exact Ok| |].
      - rewrite Rd. apply prefix_refl.
      - rewrite F3, F2, written_app'. eapply prefix_trans; [exact P2|apply prefix_app]. }
    destruct (sv_settles _ _ (on_well _ _ O) (le_n _)) as (w2 & O2 & S2 & Q2).
    exists w2. split; [exact (on_trans _ _ _ O O2)|]. split; [rewrite (ss_client _ _ S2); exact F4|]. split; [exact Q2|].
    split. { rewrite (ss_read _ _ S2), Rd. unfold kseen. rewrite (ss_client _ _ S2). reflexivity. }
    rewrite (ss_work _ _ S2), (ss_out _ _ S2), (ss_wbuf _ _ S2), (ss_written _ _ S2), F, F2, written_app'. cbn [written flat_map].
    rewrite app_nil_r. repeat split.
Qed.

Lemma comes_to_rest w : well w -> exists w2, on w w2 /\
  down_rest (cl w2) (kseen c ms w2) (sv w2) (seen c w2) /\ up_rest (cl w2) (kseen c ms w2) (sv w2) (seen c w2).
Proof.
  intros W. destruct (sv_settles _ w W (le_n _)) as (w1 & O1 & _ & P1).
  destruct (sv_sends w1 (on_well _ _ O1) P1) as (w2 & O2 & _ & P2 & W2 & X2 & B2).
  destruct (cl_settles _ w2 (on_well _ _ O2) (le_n _)) as (w3 & O3 & S3 & P3).
  destruct (cl_reads w3 (on_well _ _ O3) P3) as (w4 & O4 & E4 & P4 & R4).
  destruct (cl_sends w4 (on_well _ _ O4) P4) as (w5 & O5 & E5 & P5 & X5 & B5 & R5).
  assert (E : evs w5 = evs w2) by (rewrite E5, E4; exact (cs_server _ _ S3)).
  assert (Sv : sv w5 = sv w2) by (unfold sv; rewrite E; reflexivity).
  assert (Sn : seen c w5 = seen c w4) by (unfold seen; rewrite E5; reflexivity).
  destruct (sv_reads w5 (on_well _ _ O5)) as (w6 & O6 & K6 & P6 & R6 & W6 & X6 & B6 & T6).
  { rewrite Sv. exact P2. }
  exists w6. split; [exact (on_trans _ _ _ O1 (on_trans _ _ _ O2 (on_trans _ _ _ O3 (on_trans _ _ _ O4 (on_trans _ _ _ O5 O6)))))|].
  assert (Cl : cl w6 = cl w5) by (unfold cl; rewrite K6; reflexivity).
  assert (Kn : kseen c ms w6 = kseen c ms w5) by (unfold kseen; rewrite K6; reflexivity).
  split; constructor.
  - rewrite W6, Sv. exact W2.
  - rewrite X6, Sv. exact X2.
  - rewrite B6, Sv. exact B2.
  - rewrite Kn, R5, R4, T6, Sn. reflexivity.
  - rewrite Cl. exact P5.
  - rewrite Cl. exact X5.
  - rewrite Cl. exact B5.
  - exact R6.
  - exact P6.
Qed.

(* -- and visitors and local services take all that is there -- *)
Lemma cl_drains l : forall w, well w -> exists w2, on w w2 /\ cl_same w w2 /\ k_phase (cl w2) = k_phase (cl w) /\
  k_gone (cl w2) = k_gone (cl w) /\ kbinds (kseen c ms w2) = kbinds (kseen c ms w) /\
  (forall h, k_box (cl w) h = [] -> k_box (cl w2) h = []) /\ (forall h, In h l -> kgone h (cl w) = false -> k_box (cl w2) h = []).
Proof.
  induction l as [|h l IH]; intros w W.
  - exists w. split; [apply on_refl; exact W|]. split; [apply cl_same_refl|]. repeat split; auto. intros h [].
  - destruct (IH w W) as (w1 & A & B & C & D & E & F & G). destruct (kgone h (cl w)) eqn:Hg.
    + exists w1. repeat (split; [assumption|]). intros h' [<-|H] X; [congruence|auto].
    + destruct (kmake_room h _ w1 (on_well _ _ A) (eq_trans (f_equal (existsb (N.eqb h)) D) Hg) (le_n _)) as (w2 & A2 & B2 & C2 & _ & E2 & D2 & _ & Y2 & Z2).
      exists w2. split; [exact (on_trans _ _ _ A A2)|]. split; [exact (cl_same_trans _ _ _ B B2)|].
      repeat (split; [try congruence|]); auto. intros h' [<-|H] X; auto.
Qed.
Lemma sv_drains l : forall w, well w -> exists w2, on w w2 /\ sv_same w w2 /\ s_phase (sv w2) = s_phase (sv w) /\
  s_gone (sv w2) = s_gone (sv w) /\ binds (seen c w2) = binds (seen c w) /\
  (forall h, s_box (sv w) h = [] -> s_box (sv w2) h = []) /\ (forall h, In h l -> gone h (sv w) = false -> s_box (sv w2) h = []).
Proof.
  induction l as [|h l IH]; intros w W.
  - exists w. split; [apply on_refl; exact W|]. split; [apply sv_same_refl|]. repeat split; auto. intros h [].
  - destruct (IH w W) as (w1 & A & B & C & D & E & F & G). destruct (gone h (sv w)) eqn:Hg.
    + exists w1. repeat (split; [assumption|]). intros h' [<-|H] X; [congruence|auto].
    + destruct (make_room h _ w1 (on_well _ _ A) (eq_trans (f_equal (existsb (N.eqb h)) D) Hg) (le_n _)) as (w2 & A2 & B2 & C2 & _ & E2 & D2 & Y2 & Z2).
      exists w2. split; [exact (on_trans _ _ _ A A2)|]. split; [exact (sv_same_trans _ _ _ B B2)|].
      repeat (split; [try congruence|]); auto. intros h' [<-|H] X; auto.
Qed.
Lemma all_taken w : well w -> exists w2, on w w2 /\
  down_rest (cl w2) (kseen c ms w2) (sv w2) (seen c w2) /\ up_rest (cl w2) (kseen c ms w2) (sv w2) (seen c w2) /\
  (forall s h, In (s, h) (kbinds (kseen c ms w2)) -> kgone h (cl w2) = false -> k_box (cl w2) h = []) /\
  (forall s h, In (s, h) (binds (seen c w2)) -> gone h (sv w2) = false -> s_box (sv w2) h = []).
Proof.
  intros W. destruct (comes_to_rest w W) as (w1 & O1 & [D1 D2 D3 D4 D5] & [U1 U2 U3 U4]).
  destruct (cl_drains (map snd (kbinds (kseen c ms w1))) w1 (on_well _ _ O1)) as (w2 & O2 & [A1 A2 A3 A4 A5] & P2 & G2 & B2 & _ & T2).
  destruct (sv_drains (map snd (binds (seen c w2))) w2 (on_well _ _ O2)) as (w3 & O3 & S3 & P3 & G3 & B3 & _ & T3).
  assert (Sv : sv w2 = sv w1) by (unfold sv; rewrite A5; reflexivity).
  assert (Sn : seen c w2 = seen c w1) by (unfold seen; rewrite A5; reflexivity).
  assert (Cl : cl w3 = cl w2) by (unfold cl; rewrite (ss_client _ _ S3); reflexivity).
  assert (Kn : kseen c ms w3 = kseen c ms w2) by (unfold kseen; rewrite (ss_client _ _ S3); reflexivity).
  exists w3. split; [exact (on_trans _ _ _ O1 (on_trans _ _ _ O2 O3))|].
  destruct S3 as [C1 C2 C3 C4 C5 C6].
  split; [constructor; congruence|]. split; [constructor; congruence|]. split.
  - rewrite Cl, Kn, B2. intros s h H G. apply T2; [apply (in_map snd) in H; exact H|]. unfold kgone in *. rewrite <- G2. exact G.
  - rewrite B3. intros s h H G. apply T3; [apply (in_map snd) in H; exact H|]. unfold gone in *. rewrite <- G3. exact G.
Qed.
End Go.

(* -- nobody asks or sends anything while the ends go on -- *)
Lemma requests_quiet c es es' : forall q, (forall s v, ~ In (EvVisit s v) es') ->
  requests c (es ++ es') q -> requests c es q.
Proof.
  induction es' as [|e es' IH] using rev_ind; intros q H R; [rewrite app_nil_r in R; exact R|].
  rewrite app_assoc in R. apply IH; [intros s v I; apply (H s v), in_app_iff; left; exact I|].
  remember ((es ++ es') ++ [e]) as l eqn:E. destruct R as [|es1 l1 s v d R1 R2 R3|es1 l1 e1 R1 R2].
  - symmetry in E. apply app_eq_nil in E as [_ E]. discriminate E.
  - apply app_inj_tail in E as [-> <-]. destruct (H s v). apply in_app_iff. right. left. reflexivity.
  - apply app_inj_tail in E as [-> _]. exact R1.
Qed.
Lemma visitor_quiet c s es' : forall es st, (forall s' d, ~ In (EvData s' d) es') ->
  visitor_bytes c s st (es ++ es') = visitor_bytes c s st es.
Proof.
  intros es. induction es as [|e es IH]; intros st H; cbn [app visitor_bytes]; [|rewrite IH by exact H; reflexivity].
  revert st. induction es' as [|e es' IH]; intros st; [reflexivity|]. cbn [visitor_bytes].
  rewrite IH by (intros s' d I; apply (H s' d); right; exact I).
  destruct e; try reflexivity. edestruct H. left. reflexivity.
Qed.
Lemma service_quiet s es' : forall es st, (forall s' d, ~ In (KData s' d) es') ->
  service_bytes s st (es ++ es') = service_bytes s st es.
Proof.
  intros es. induction es as [|e es IH]; intros st H; cbn [app service_bytes]; [|rewrite IH by exact H; reflexivity].
  revert st. induction es' as [|e es' IH]; intros st; [reflexivity|]. cbn [service_bytes].
  rewrite IH by (intros s' d I; apply (H s' d); right; exact I).
  destruct e; try reflexivity. edestruct H. left. reflexivity.
Qed.
Lemma evs_goes w e : Forall goes_on w -> In e (evs w) -> goes_on (AtServer e).
Proof.
  intros H I. unfold evs in I. apply in_flat_map in I as (j & I & J). rewrite Forall_forall in H. specialize (H j I).
  destruct j as [e'|e']; cbn in J; [|destruct J]. destruct J as [<-|[]]. exact H.
Qed.
Lemma kevs_goes w e : Forall goes_on w -> In e (kevs w) -> goes_on (AtClient e).
Proof.
  intros H I. unfold kevs in I. apply in_flat_map in I as (j & I & J). rewrite Forall_forall in H. specialize (H j I).
  destruct j as [e'|e']; cbn in J; [destruct J|]. destruct J as [<-|[]]. exact H.
Qed.

(* -- handlers, requests and replies of a history that goes on -- *)
Lemma last_bind s tr : (exists h, In (QBind s h) tr) ->
  exists a h b, tr = a ++ QBind s h :: b /\ forall h', ~ In (QBind s h') b.
Proof.
  induction tr as [|e tr IH] using rev_ind; intros [h H]; [destruct H|].
  assert (D : (exists h', e = QBind s h') \/ forall h', e <> QBind s h').
  { destruct e as [|s' h'| | | | | | | | | | |]; try (right; intros; discriminate).
    destruct (N.eq_dec s' s) as [->|X]; [left; exists h'; reflexivity|right; intros h2 E; injection E as E _; contradiction]. }
  destruct D as [(h' & ->)|D].
  - exists tr, h', []. split; [reflexivity|]. intros h2 [].
  - apply in_app_iff in H as [H|[H|[]]]; [|destruct (D _ H)].
    destruct IH as (a & h1 & b & -> & N1); [exists h; exact H|]. exists a, h1, (b ++ [e]).
    split; [rewrite <- app_assoc; reflexivity|]. intros h' X. apply in_app_iff in X as [X|[X|[]]]; [exact (N1 _ X)|exact (D _ X)].
Qed.
Definition contacting (s h : N) (x : keff) : Prop :=
  match x with QProxy s' h' _ | QConnect s' h' _ | QNoAddr s' h' => s' = s /\ h' = h | _ => False end.
Lemma ksay_bye_quiet s h m : forall st x, In x (snd (ksay_bye m st)) -> ~ contacting s h x.
Proof.
  induction m as [|[s' h'] m IH]; intros st x H; [destruct H|]. cbn [ksay_bye] in H. destruct (_ || _); [exact (IH _ _ H)|].
  specialize (IH (kset_box h' (k_box st h' ++ [FClose s' []]) st) x). destruct (ksay_bye m _) as [st2 o]. destruct H as [<-|H]; [intros []|exact (IH H)].
Qed.
Lemma contact_step st e s h x : In x (snd (kstep st e)) -> contacting s h x -> In (QBind s h) (snd (kstep st e)).
Proof.
  assert (T : forall h' f' st0 x, In x (snd (ktry_send h' f' st0)) -> ~ contacting s h x).
  { intros h' f' st0 y. unfold ktry_send. destruct (_ || _); intros [<-|[]] []. }
  assert (C : forall y, In y (snd (ktunnel_closed st)) -> ~ contacting s h y).
  { intros y. unfold ktunnel_closed. pose proof (ksay_bye_quiet s h (k_map st) st) as B. destruct (ksay_bye (k_map st) st) as [st2 o].
    cbn [snd] in *. intros H. apply in_app_iff in H as [H|[<-|[]]]; [exact (B _ H)|intros []]. }
  intros H Q. destruct e as [s1|s1 d|s1 r|h'|h'|h'| | |b| |n| |]; cbn [kstep] in *.
  - destruct (_ <? _); destruct H.
  - destruct (_ <? _); destruct H.
  - destruct (_ <? _); destruct H.
  - destruct (k_box st h'); [destruct H|]. destruct (kgone h' st); [destruct H|]. destruct H as [<-|[]]. destruct Q.
  - destruct H.
  - destruct (lookup _ _ _); [destruct (_ <? _)|]; destruct H.
  - destruct (k_phase st); try destruct H. destruct (k_work st) as [|[[s1 d] h'] q]; [destruct H|]. destruct H as [<-|[]]. destruct Q.
  - destruct (k_phase st); try destruct H. destruct (k_out st); destruct H.
  - destruct (k_phase st); try destruct H. destruct b; [destruct (C _ H Q)|]. destruct H as [<-|[]]. destruct Q.
  - destruct (k_phase st); try destruct H. destruct (C _ H Q).
  - destruct (k_phase st); try destruct H. destruct (k_wbuf st); [destruct H|]. destruct H as [<-|[]]. destruct Q.
  - destruct (k_phase st); try destruct H. destruct (k_wbuf st); destruct H.
  - destruct (k_phase st); try destruct H; [|destruct (_ <? _); [destruct H as [<-|[]]; destruct Q|destruct H]].
    destruct (decode_frame (k_rbuf st)) as [|f z|e z|]; try (destruct H; fail); try (destruct H as [<-|[]]; destruct Q; fail).
    destruct f as [s1 dom|s1 r|s1 d|s1 m|u p]; cbn [khandle] in *.
    + destruct (choose _ _) as [m|].
      * destruct (is_proxy m); [|destruct (m_local m)]; destruct H as [<-|[<-|[<-|[]]]]; cbn in Q; try contradiction; destruct Q as [<- <-];
          right; left; reflexivity.
      * destruct (_ <? _); cbn in H; intuition (subst x; contradiction).
    + destruct (s1 =? 0); [destruct H as [<-|[]]; destruct Q|]. destruct (lookup _ _ _) as [h'|]; [|destruct H as [<-|[]]; destruct Q].
      specialize (T h' (FClose s1 r) (kset_rbuf z st) x). destruct (ktry_send _ _ _) as [st1 o]. destruct H as [<-|H]; [destruct Q|destruct (T H Q)].
    + destruct (lookup _ _ _) as [h'|]; [|destruct H as [<-|[]]; destruct Q].
      specialize (T h' (FData s1 d) (kset_rbuf z st) x). destruct (ktry_send _ _ _) as [st1 o]. destruct H as [<-|H]; [destruct Q|destruct (T H Q)].
    + destruct H as [<-|[]]. destruct Q.
    + destruct H as [<-|[<-|[]]]; destruct Q.
Qed.
Lemma contact_bound c ms es st tr : krun (k_init c ms) es = (st, tr) ->
  forall s h x, In x tr -> contacting s h x -> In (QBind s h) tr.
Proof.
  apply (krun_reach (fun _ tr => forall s h x, In x tr -> contacting s h x -> In (QBind s h) tr)).
  - intros s h x [].
  - intros st1 tr1 e IH s h x H Q. apply in_app_iff. apply in_app_iff in H as [H|H]; [left; exact (IH s h x H Q)|right; exact (contact_step _ _ _ _ _ H Q)].
Qed.
Lemma contact_named s x tr : In (s, x) (contacts tr) <-> exists h y, In y tr /\ contacting s h y /\
  match y with QProxy _ _ m => x = Served m | QConnect _ _ a => x = Contacted a | _ => x = Nowhere end.
Proof.
  unfold contacts. rewrite in_flat_map. split.
  - intros (y & H & Y). destruct y; cbn in Y; try contradiction; destruct Y as [Y|[]]; injection Y as <- <-; eexists; eexists;
      (split; [exact H|]); cbn; repeat split.
  - intros (h & y & H & Q & E). exists y. split; [exact H|]. destruct y; cbn in Q; try contradiction; destruct Q as [-> _]; rewrite E; left; reflexivity.
Qed.
Lemma one_bind c ms es st tr s s' h : krun (k_init c ms) es = (st, tr) -> In (QBind s h) tr -> In (QBind s' h) tr -> s' = s.
Proof.
  intros R A B. destruct (kinv_reach _ _ _ _ _ R) as (_ & _ & _ & Nd & _). apply NoDup_app_remove_r in Nd.
  apply in_kbinds in A, B. revert Nd A B. generalize (kbinds tr) as l. induction l as [|[s1 h1] l IH]; intros Nd A B; [destruct A|].
  cbn in Nd. apply NoDup_cons_iff in Nd as [N1 N2].
  destruct A as [A|A], B as [B|B].
  - congruence.
  - destruct N1. apply (in_map snd) in B. cbn [snd] in B. replace h1 with h by congruence. exact B.
  - destruct N1. apply (in_map snd) in A. cbn [snd] in A. replace h1 with h by congruence. exact A.
  - auto.
Qed.
Lemma split_front {A} (a b p q : list A) x : a ++ b = p ++ x :: q -> ~ In x b -> exists q1, a = p ++ x :: q1 /\ q = q1 ++ b.
Proof.
  revert p. induction a as [|y a IH]; intros [|z p] E H.
  - destruct H. cbn in E. rewrite E. left. reflexivity.
  - destruct H. cbn in E. rewrite E. right. apply in_app_iff. right. left. reflexivity.
  - injection E as -> <-. exists a. split; reflexivity.
  - injection E as -> E. destruct (IH p E H) as (q1 & -> & ->). exists q1. split; reflexivity.
Qed.
Lemma once_on s w w' : Forall goes_on w' -> once s w -> once s (w ++ w').
Proof.
  intros G H p v q v' E. rewrite evs_app in E. assert (X : forall v, ~ In (EvVisit s v) (evs w')) by (intros v0 I; exact (evs_goes _ _ G I)).
  destruct (split_front _ _ _ _ _ E (X v)) as (q1 & E1 & ->). intros I. apply in_app_iff in I as [I|I]; [exact (H p v q1 v' E1 I)|exact (X v' I)].
Qed.
Lemma replies_on c ms s w w' : Forall goes_on w' -> replies_only c ms s w -> replies_only c ms s (w ++ w').
Proof.
  intros G H p d q E. rewrite Forall_forall in G. assert (X : ~ In (AtClient (KData s d)) w') by (intros I; exact (G _ I)).
  destruct (split_front _ _ _ _ _ E X) as (q1 & E1 & _). exact (H p d q1 E1).
Qed.

(* -- a history has one list of requests -- *)
Lemma wanted_one ms v d d' : wanted ms v d -> wanted ms v d' -> d = d'.
Proof.
  destruct v as [host|mode]; cbn [wanted]; [intros [-> _] [-> _]; reflexivity|].
  intros (b & m & a & E & M & F & ->) (b' & m' & a' & E' & M' & F' & ->). f_equal. rewrite E in E'. clear E ms.
  revert b' E'. induction b as [|x b IH]; intros [|y b'] E'.
  - injection E' as -> _. reflexivity.
  - injection E' as -> E'. rewrite E' in F. apply Forall_app in F as [_ F]. apply Forall_inv in F. contradiction.
  - injection E' as -> E'. rewrite <- E' in F'. apply Forall_app in F' as [_ F']. apply Forall_inv in F'. contradiction.
  - injection E' as _ E'. exact (IH b' E').
Qed.
Lemma requests_one c es q : requests c es q -> forall q', requests c es q' -> q = q'.
Proof.
  intros R. induction R as [|es l s v d R IH Wn Rm|es l e R IH No]; intros q' R'.
  - remember [] as es eqn:E. destruct R' as [|es l s v d R' Wn' Rm'|es l e R' No']; [reflexivity| |]; symmetry in E; apply app_cons_not_nil in E; contradiction.
  - remember (es ++ [EvVisit s v]) as es2 eqn:E. destruct R' as [|es' l' s' v' d' R' Wn' Rm'|es' l' e' R' No'].
    + apply app_cons_not_nil in E. contradiction.
    + apply app_inj_tail in E as [-> E]. injection E as -> ->. rewrite (IH l' R'), (wanted_one _ _ _ _ Wn Wn'). reflexivity.
    + apply app_inj_tail in E as [-> ->]. specialize (No' s v d eq_refl Wn). lia.
  - remember (es ++ [e]) as es2 eqn:E. destruct R' as [|es' l' s' v' d' R' Wn' Rm'|es' l' e' R' No'].
    + apply app_cons_not_nil in E. contradiction.
    + apply app_inj_tail in E as [-> <-]. specialize (No s' v' d' eq_refl Wn'). lia.
    + apply app_inj_tail in E as [-> ->]. exact (IH l' R').
Qed.
