(* Both ends together. *)
From Coq Require Import String.
From Verif Require Import Base Text ProtModel ProtSpec ProtProofs ProtStream CsModel CsSpec CsProofs
  CsRoute CcModel CcSpec CcProofs CcCreate TunSpec TunServer TunClient.
Open Scope N_scope.

(* ---- what is decoded has a wire stream id ---------------------------------- *)
Lemma bytes_ok_cons x l : bytes_ok (x :: l) = true -> x < 256 /\ bytes_ok l = true.
Proof. unfold bytes_ok. cbn [forallb]. unfold byte_ok at 1. intros H. apply andb_true_iff in H as [H1 H2]. split; [lia|exact H2]. Qed.
Lemma bytes_ok_skipn n l : bytes_ok l = true -> bytes_ok (skipn n l) = true.
Proof.
  intros H. rewrite <- (firstn_skipn n l), bytes_ok_app in H. apply andb_true_iff in H. exact (proj2 H).
Qed.

Lemma parse_sock h b f : frame_parse h b = Ok f -> frame_sock f = h_sock h \/ frame_sock f = 0.
Proof.
  unfold frame_parse. destruct (h_kind h); try discriminate.
  - unfold data_parse. destruct (nlen b <? h_len h); [discriminate|]. intros E. injection E as <-. left; reflexivity.
  - unfold create_parse. destruct (get_u8 b) as [[n b1]| |]; cbn [rbind]; try discriminate.
    destruct (nlen b1 <? n); [discriminate|]. intros E. injection E as <-. left; reflexivity.
  - unfold close_parse. destruct (read_short_string b) as [[r b1]| |]; cbn [rbind]; try discriminate.
    intros E. injection E as <-. left; reflexivity.
  - unfold mapping_parse. destruct (must_have 2 b) as [[? b0]| |]; cbn [rbind]; try discriminate.
    destruct (get_u16 b0) as [[len b1]| |]; cbn [rbind]; try discriminate.
    destruct (mappings_parse (N.to_nat len) b1) as [[ms ?]| |]; cbn [rbind]; try discriminate.
    intros E. injection E as <-. left; reflexivity.
  - unfold token_parse. destruct (read_short_string b) as [[u b1]| |]; cbn [rbind]; try discriminate.
    destruct (read_short_string b1) as [[p b2]| |]; cbn [rbind]; try discriminate.
    intros E. injection E as <-. right; reflexivity.
Qed.

Lemma decode_sock b f r : bytes_ok b = true -> decode_frame b = DFrame f r ->
  wire_sock (frame_sock f) /\ bytes_ok r = true.
Proof.
  intros Hb. unfold decode_frame. destruct (nlen b <? 8); [discriminate|].
  destruct (read_u24 b) as [[len copy]| |] eqn:Er; try discriminate.
  destruct (nlen b <? len + frame_header_bytes); [discriminate|].
  destruct (parse_by_len len copy) as [[h body]| |] eqn:Ep; try discriminate.
  destruct (frame_parse h body) as [f'| |] eqn:Ef; try discriminate.
  intros E. injection E as <- <-. split; [|apply bytes_ok_skipn; exact Hb].
  destruct (parse_sock _ _ _ Ef) as [-> | ->]; [|exact wire_sock_0].
  assert (Hc : bytes_ok copy = true).
  { destruct b as [|x [|y [|z b]]]; cbn [read_u24] in Er; try discriminate. injection Er as <- <-.
    apply bytes_ok_cons in Hb as [_ Hb]. apply bytes_ok_cons in Hb as [_ Hb]. apply bytes_ok_cons in Hb as [_ Hb]. exact Hb. }
  unfold parse_by_len in Ep. destruct (nlen copy <? frame_header_bytes - 3); [discriminate|].
  destruct copy as [|k [|fl [|a1 [|a2 [|a3 [|c1 [|c2 [|c3 [|c4 copy]]]]]]]]]; cbn [get_u8 read_u24 get_u32 rbind] in Ep; try discriminate.
  injection Ep as <- <-. cbn [h_sock]. unfold calc_sock_map.
  repeat (apply bytes_ok_cons in Hc as [? Hc]).
  exists (c1 * 16777216 + c2 * 65536 + c3 * 256 + c4), (a1 * 65536 + a2 * 256 + a3).
  change (2 ^ 32) with 4294967296. change (2 ^ 24) with 16777216. repeat split; lia.
Qed.

Lemma decode_fail_ok b e r : bytes_ok b = true -> decode_frame b = DFail e r -> bytes_ok r = true.
Proof.
  intros Hb. unfold decode_frame. destruct (nlen b <? 8); [discriminate|].
  destruct (read_u24 b) as [[len copy]| |] eqn:Er; try discriminate.
  - destruct (nlen b <? len + frame_header_bytes); [discriminate|].
    destruct (parse_by_len len copy) as [[h body]| |] eqn:Ep; try discriminate.
    + destruct (frame_parse h body) as [f'| |] eqn:Ef; try discriminate.
      intros E. injection E as _ <-. apply bytes_ok_skipn; exact Hb.
    + intros E. injection E as _ <-. apply bytes_ok_skipn; exact Hb.
  - intros E. injection E as _ <-. exact Hb.
Qed.

(* ---- the frames of an initial part of the wire ------------------------------ *)
Lemma complete_prefix n fs : prefix (complete n fs) fs.
Proof. destruct (complete_split fs n) as (fs2 & H & _). exists fs2. exact H. Qed.
Lemma prefix_map {A B} (f : A -> B) a b : prefix a b -> prefix (map f a) (map f b).
Proof. intros [x ->]. exists (map f x). apply map_app. Qed.

Lemma frames_prefix fs b : Forall fits fs -> prefix b (wire fs) ->
  frames b = map public (complete (nlen b) fs).
Proof.
  intros Hf [c Hc]. unfold frames. rewrite (drain_prefix fs Hf b c) by (try exact Hc; lia). reflexivity.
Qed.
Lemma frames_prefix_public fs b : Forall fits fs -> prefix b (wire fs) -> prefix (frames b) (map public fs).
Proof. intros H1 H2. rewrite (frames_prefix fs b H1 H2). apply prefix_map, complete_prefix. Qed.

(* ---- the frames the client sends fit ---------------------------------------- *)
Definition kfit (st : kst) : Prop :=
  Forall fits (k_out st) /\ Forall (fun x => wire_sock (fst (fst x)) /\ snd (fst x) = None) (k_work st) /\
  Forall (fun x => wire_sock (snd x)) (k_conn st) /\ bytes_ok (k_rbuf st) = true /\
  (forall f, k_phase st = KStuck f -> fits f) /\
  Forall (fun f => match f with FMapping _ _ | FToken _ _ => False | _ => True end) (k_out st) /\
  (forall f, k_phase st = KStuck f -> match f with FMapping _ _ | FToken _ _ => False | _ => True end).
Definition modest (f : frame) : Prop := fits f /\ match f with FMapping _ _ | FToken _ _ => False | _ => True end.

Lemma fits_close s : wire_sock s -> fits (FClose s []).
Proof. intros H. split; [exact H|]. split; [exists []; split; [constructor|reflexivity]|vm_compute; discriminate]. Qed.

Lemma ktry_send_fit h f st : kfit st -> kfit (fst (ktry_send h f st)).
Proof. intros H. unfold ktry_send. destruct (kgone h st || _); exact H. Qed.

Lemma Forall_snoc {A} (P : A -> Prop) l x : Forall P l -> P x -> Forall P (l ++ [x]).
Proof. intros H1 H2. apply Forall_app. split; [exact H1|constructor; [exact H2|constructor]]. Qed.

Lemma lookup_forall {A B} (eqb : A -> A -> bool) k (m : list (A * B)) v (P : B -> Prop) :
  Forall (fun x => P (snd x)) m -> lookup eqb k m = Some v -> P v.
Proof.
  induction 1 as [|[a b] m Hx _ IH]; cbn [lookup]; [discriminate|].
  destruct (eqb k a); [intros E; injection E as <-; exact Hx|exact IH].
Qed.
Lemma remove_forall {A B} (eqb : A -> A -> bool) k (m : list (A * B)) (P : A * B -> Prop) :
  Forall P m -> Forall P (remove eqb k m).
Proof.
  induction 1 as [|[a b] m Hx _ IH]; cbn [remove]; [constructor|].
  destruct (eqb k a); [exact IH|constructor; assumption].
Qed.

Lemma kfit_closed st : kfit st -> kfit (fst (ktunnel_closed st)).
Proof.
  intros (A & B & C & D & E & F & G). unfold ktunnel_closed.
  assert (K : forall m st0, k_out (fst (ksay_bye m st0)) = k_out st0 /\ k_work (fst (ksay_bye m st0)) = k_work st0 /\
     k_conn (fst (ksay_bye m st0)) = k_conn st0 /\ k_rbuf (fst (ksay_bye m st0)) = k_rbuf st0).
  { induction m as [|[s h] m IH]; intros st0; [repeat split|]. cbn [ksay_bye].
    destruct (kgone h st0 || _); [apply IH|]. specialize (IH (kset_box h (k_box st0 h ++ [FClose s []]) st0)).
    destruct (ksay_bye m _). exact IH. }
  specialize (K (k_map st) st). destruct (ksay_bye (k_map st) st) as [st' es]. cbn [fst] in *.
  destruct K as (K1 & K2 & K3 & K4). unfold kfit. cbn [fst k_out k_work k_conn k_rbuf k_phase kset_phase].
  rewrite K1, K2, K3, K4. repeat split; try assumption; discriminate.
Qed.

Lemma kfit_step st e : kfit st -> kev_ok e -> kfit (fst (kstep st e)) /\ Forall modest (kpush1 st e).
Proof.
  intros H He. pose proof H as (A & B & C & D & E & F & G).
  assert (Hn : Forall modest []) by constructor.
  destruct e as [s|s d|s r|h|h|h| | |b| |n| |]; cbn [kstep kpush1 kev_ok] in *.
  - split; [|exact Hn]. destruct (nlen (k_work st) <? work_cap); [|exact H].
    unfold kfit. cbn [fst k_out k_work k_conn k_rbuf k_phase kfresh kset_work].
    repeat split; try assumption. apply Forall_snoc; [exact B|split; [exact He|reflexivity]].
  - split; [|exact Hn]. destruct (nlen (k_out st) <? out_cap); [|exact H].
    unfold kfit. cbn [fst k_out k_work k_conn k_rbuf k_phase kset_out].
    repeat split; try assumption; apply Forall_snoc; try assumption; exact I.
  - split; [|exact Hn]. destruct (nlen (k_out st) <? out_cap); [|exact H].
    unfold kfit. cbn [fst k_out k_work k_conn k_rbuf k_phase kset_out].
    repeat split; try assumption; apply Forall_snoc; try assumption; exact I.
  - split; [|exact Hn]. destruct (k_box st h); [exact H|]. destruct (kgone h st); exact H.
  - split; [exact H|exact Hn].
  - split; [|exact Hn]. destruct (lookup N.eqb h (k_conn st)) as [s|] eqn:El; [|exact H].
    destruct (nlen (k_out st) <? out_cap); [|exact H].
    unfold kfit. cbn [fst k_out k_work k_conn k_rbuf k_phase kset_out kset_gone kset_conn].
    repeat split; try assumption.
    + apply Forall_snoc; [exact A|]. apply fits_close. exact (lookup_forall N.eqb h _ s wire_sock C El).
    + apply remove_forall. exact C.
    + apply Forall_snoc; [exact F|exact I].
  - destruct (k_phase st) eqn:Hp; try (split; [exact H|exact Hn]).
    destruct (k_work st) as [|[[s0 d0] h0] w] eqn:Ew; try (split; [exact H|exact Hn]).
    inversion B as [|x l [B1 B2] B3]; subst. cbn [fst snd] in *. subst d0.
    split; [|repeat constructor; exact B1].
    unfold kfit. cbn [fst k_out k_work k_conn k_rbuf k_phase kset_phase kset_wbuf kset_map kset_work].
    repeat split; try assumption; discriminate.
  - destruct (k_phase st) eqn:Hp; try (split; [exact H|exact Hn]).
    destruct (k_out st) as [|f o] eqn:Eo; try (split; [exact H|exact Hn]).
    apply Forall_cons_iff in A as [A1 A2]. apply Forall_cons_iff in F as [F1 F2].
    split; [|repeat constructor; assumption].
    unfold kfit. cbn [fst k_out k_work k_conn k_rbuf k_phase kset_phase kset_wbuf kset_out].
    repeat split; try assumption; discriminate.
  - split; [|exact Hn]. destruct (k_phase st) eqn:Hp; try (destruct b; exact H).
    destruct b as [|x b]; [apply kfit_closed; exact H|].
    unfold kfit. cbn [fst k_out k_work k_conn k_rbuf k_phase kset_phase kset_rbuf].
    repeat split; try assumption; try discriminate.
    rewrite bytes_ok_app, D. exact He.
  - split; [|exact Hn]. destruct (k_phase st) eqn:Hp; try exact H. apply kfit_closed; exact H.
  - split; [|exact Hn]. destruct (k_phase st) eqn:Hp; try exact H. destruct (k_wbuf st); [exact H|].
    unfold kfit. cbn [fst k_out k_work k_conn k_rbuf k_phase kset_phase kset_wbuf].
    repeat split; try assumption; discriminate.
  - split; [|exact Hn]. destruct (k_phase st) eqn:Hp; try exact H. destruct (k_wbuf st); [exact H|].
    unfold kfit. cbn [fst k_out k_work k_conn k_rbuf k_phase kset_phase].
    repeat split; try assumption; discriminate.
  - split; [|exact Hn].
    destruct (k_phase st) as [| |f0|x] eqn:Hp; try exact H.
    2:{ destruct (nlen (k_out st) <? out_cap); [|exact H].
        unfold kfit. cbn [fst k_out k_work k_conn k_rbuf k_phase kset_phase kset_out].
        repeat split; try assumption; try discriminate; apply Forall_snoc; try assumption.
        - apply E; reflexivity.
        - apply G; reflexivity. }
    destruct (decode_frame (k_rbuf st)) as [|f rest|e rest|] eqn:Hd.
    + unfold kfit. cbn [fst k_out k_work k_conn k_rbuf k_phase kset_phase].
      repeat split; try assumption; discriminate.
    + destruct (decode_sock _ _ _ D Hd) as [Hs Hr].
      assert (H' : kfit (kset_rbuf rest st)).
      { unfold kfit. cbn [k_out k_work k_conn k_rbuf k_phase kset_rbuf]. rewrite Hp.
        repeat split; try assumption; discriminate. }
      destruct f as [s dom|s r|s d|s ms|u p]; cbn [khandle frame_sock] in *.
      * destruct (choose _ _) as [m|].
        -- destruct (is_proxy m); [exact H'|]. destruct (m_local m); [|exact H'].
           destruct H' as (A' & B' & C' & D' & E' & F' & G').
           unfold kfit. cbn [fst k_out k_work k_conn k_rbuf k_phase kset_conn kfresh kset_map].
           repeat split; try assumption. constructor; [exact Hs|exact C'].
        -- destruct H' as (A' & B' & C' & D' & E' & F' & G').
           destruct (_ <? out_cap); unfold kfit;
             cbn [fst k_out k_work k_conn k_rbuf k_phase kset_out kset_phase].
           ++ repeat split; try assumption; apply Forall_snoc; try assumption; first [apply fits_close; exact Hs|exact I].
           ++ repeat split; try assumption; intros f Ef; injection Ef as <-; first [apply fits_close; exact Hs|exact I].
      * destruct (s =? 0); [exact H'|]. destruct (lookup _ _ _) as [h|]; [|exact H'].
        pose proof (ktry_send_fit h (FClose s r) _ H') as T. destruct (ktry_send _ _ _). exact T.
      * destruct (lookup _ _ _) as [h|]; [|exact H'].
        pose proof (ktry_send_fit h (FData s d) _ H') as T. destruct (ktry_send _ _ _). exact T.
      * exact H'.
      * unfold kfit in *. cbn [fst k_out k_work k_conn k_rbuf k_phase kset_phase kset_rbuf] in *.
        repeat split; try apply H'; discriminate.
    + unfold kfit. cbn [fst k_out k_work k_conn k_rbuf k_phase kset_phase kset_rbuf].
      repeat split; try assumption; try discriminate.
      exact (decode_fail_ok _ _ _ D Hd).
    + unfold kfit. cbn [fst k_out k_work k_conn k_rbuf k_phase kset_phase].
      repeat split; try assumption; discriminate.
Qed.

Lemma kfit_run es : forall st, kfit st -> Forall kev_ok es -> Forall modest (kpushed st es).
Proof.
  induction es as [|e es IH]; intros st H He; [constructor|].
  apply Forall_cons_iff in He as [He Hes]. destruct (kfit_step st e H He) as [H1 H2].
  cbn [kpushed]. apply Forall_app. split; [exact H2|exact (IH _ H1 Hes)].
Qed.
Lemma kfit_init c ms : kfit (k_init c ms).
Proof.
  unfold kfit, k_init. cbn. repeat split; try constructor; destruct (snd (hello c ms)); discriminate.
Qed.

(* ---- the frames the server sends fit ---------------------------------------- *)
Definition sfit (st : sst) : Prop :=
  Forall fits (s_out st) /\ Forall (fun x => fits (FCreate (fst (fst x)) (snd (fst x)))) (s_work st).
Definition good_names (ms : list mapping) : Prop := Forall (fun m => m_name m <> [] /\ short_string (m_name m)) ms.

Lemma refuse_fits : fits refuse_frame.
Proof.
  split; [exact wire_sock_0|]. split; [|vm_compute; discriminate].
  apply is_string_ascii. reflexivity.
Qed.

Lemma wanted_fits ms v d s : good_names ms -> wanted ms v d -> ev_ok (EvVisit s v) -> fits (FCreate s (Some d)).
Proof.
  intros Hg Hw [Hs Hv]. split; [exact Hs|]. destruct v as [host|mode]; cbn [wanted] in Hw.
  - destruct Hw as [-> _]. exact Hv.
  - destruct Hw as (a & m & b & -> & _ & _ & ->). apply Forall_app in Hg as [_ Hg].
    apply Forall_cons_iff in Hg as [[H1 H2] _]. split; assumption.
Qed.

Lemma sfit_step c st e : sfit st -> ev_ok e -> good_names (s_maps st) ->
  sfit (fst (step c st e)) /\ Forall fits (push1 c st e).
Proof.
  intros H He Hg. pose proof H as [A B].
  assert (Hn : Forall fits []) by constructor.
  assert (Hsame : forall st', s_out st' = s_out st -> s_work st' = s_work st -> sfit st').
  { intros st' E1 E2. unfold sfit. rewrite E1, E2. exact H. }
  destruct e as [s v|s d|s r|h|h| | |b| |n| |]; cbn [step push1].
  - split; [|exact Hn]. destruct (visit_domain (s_maps st) v) as [d|] eqn:Ev; [|exact H].
    destruct (nlen (s_work st) <? work_cap); [|exact H]. split; [exact A|]. cbn.
    apply Forall_snoc; [exact B|]. cbn [fst snd]. apply wanted_ok in Ev.
    exact (wanted_fits _ _ _ _ Hg Ev He).
  - split; [|exact Hn]. destruct (is_open s st && _); [|exact H]. split; [|exact B]. cbn.
    apply Forall_snoc; [exact A|exact He].
  - split; [|exact Hn]. destruct (nlen (s_out st) <? out_cap); [|exact H]. split; [|exact B]. cbn.
    apply Forall_snoc; [exact A|exact He].
  - split; [|exact Hn]. destruct (s_box st h); [exact H|]. destruct (gone h st); exact H.
  - split; [exact H|exact Hn].
  - destruct (s_phase st); try (split; [exact H|exact Hn]).
    destruct (s_work st) as [|[[s0 d0] h0] w] eqn:Ew; try (split; [exact H|exact Hn]).
    apply Forall_cons_iff in B as [B1 B2]. split; [|constructor; [exact B1|constructor]]. split; assumption.
  - destruct (s_phase st); try (split; [exact H|exact Hn]).
    destruct (s_out st) as [|f o] eqn:Eo; try (split; [exact H|exact Hn]).
    apply Forall_cons_iff in A as [A1 A2]. split; [|constructor; [exact A1|constructor]]. split; assumption.
  - split; [|exact Hn]. destruct (s_phase st); try exact H. destruct b; [|exact H].
    apply Hsame; apply closed_maps.
  - split; [|exact Hn]. destruct (s_phase st); try exact H. apply Hsame; apply closed_maps.
  - split; [|exact Hn]. destruct (s_phase st); try exact H. destruct (s_wbuf st) as [|x w]; [exact H|].
    cbn [s_wbuf set_wbuf]. destruct (skipn _ (x :: w)), (s_shut st); exact H.
  - split; [|exact Hn]. destruct (s_phase st); try exact H. destruct (s_wbuf st) as [|x w]; exact H.
  - destruct (s_phase st) as [| |h f|r]; try (split; [exact H|exact Hn]).
    2:{ split; [|exact Hn]. apply Hsame; apply deliver_maps. }
    destruct (decode_frame (s_rbuf st)) as [|f rest|e rest|]; try (split; [exact H|exact Hn]).
    split; [|destruct (refuses c st f); [constructor; [exact refuse_fits|constructor]|constructor]].
    assert (Hd : forall h g, sfit (fst (deliver h g (set_rbuf rest st)))).
    { intros h g. pose proof (deliver_maps h g (set_rbuf rest st)) as (_ & _ & D1 & D2 & _).
      apply Hsame; assumption. }
    unfold handle. destruct f as [s d|s r|s d|s ms|u p]; cbn [s_verify set_rbuf];
      destruct (s_verify st); cbn [negb andb]; try exact H;
      try (cbn [s_map set_rbuf]; destruct (lookup N.eqb s (s_map st)) as [h|]; [|exact H];
           match goal with |- context [deliver h ?g ?z] => specialize (Hd h g); destruct (deliver h g z) end;
           exact Hd).
    destruct (check_succ c u p); exact H.
Qed.

Lemma sfit_reach c es : Forall ev_ok es ->
  (forall e1 e2, es = e1 ++ e2 -> good_names (s_maps (fst (run c (s_init c) e1)))) ->
  sfit (fst (run c (s_init c) es)) /\ Forall fits (pushed c (s_init c) es).
Proof.
  induction es as [|e es IH] using rev_ind; intros He Hg.
  - split; [split; constructor|constructor].
  - apply Forall_app in He as [He1 He2]. apply Forall_cons_iff in He2 as [He2 _].
    destruct IH as [I1 I2]; [exact He1|intros e1 e2 ->; apply (Hg e1 (e2 ++ [e])); symmetry; apply app_assoc|].
    destruct (sfit_step c (fst (run c (s_init c) es)) e I1 He2 (Hg es [e] eq_refl)) as [S1 S2].
    rewrite run_app, pushed_app. cbn [fst]. split.
    + rewrite run_cons. cbn [fst]. exact S1.
    + apply Forall_app. split; [exact I2|]. cbn [pushed]. rewrite app_nil_r. exact S2.
Qed.

(* ---- refusal ------------------------------------------------------------------ *)
Lemma no_refusal_when_open c es st tr : c = Creds None None -> run c (s_init c) es = (st, tr) ->
  s_verify st = true /\ refused tr = [].
Proof.
  intros ->. apply (run_reach _ (fun st tr => s_verify st = true /\ refused tr = [])).
  - split; reflexivity.
  - intros st0 tr0 e [H1 H2]. destruct (step_verified (Creds None None) st0 e H1) as [A B].
    split; [exact A|]. rewrite refused_app, H2, B. reflexivity.
Qed.

Lemma deliver_shut h f st : s_shut (fst (deliver h f st)) = s_shut st.
Proof. unfold deliver. destruct (gone h st); [reflexivity|]. destruct (nlen (s_box st h) <? handler_cap); reflexivity. Qed.
Lemma closed_shut st : s_shut (fst (tunnel_closed st)) = s_shut st.
Proof.
  unfold tunnel_closed.
  assert (K : forall m st0, s_shut (fst (say_bye m st0)) = s_shut st0).
  { induction m as [|[s h] m IH]; intros st0; [reflexivity|]. cbn [say_bye].
    destruct (gone h st0 || _); [apply IH|]. specialize (IH (set_box h (s_box st0 h ++ [FClose s []]) st0)).
    destruct (say_bye m _). exact IH. }
  specialize (K (s_map st) st). destruct (say_bye (s_map st) st). exact K.
Qed.
Lemma shut_step c st e : s_shut (fst (step c st e)) = s_shut st \/ refused (snd (step c st e)) <> [].
Proof.
  destruct e as [s v|s d|s r|h|h| | |b| |n| |]; cbn [step].
  - left. destruct (visit_domain (s_maps st) v); [|reflexivity]. destruct (nlen (s_work st) <? work_cap); reflexivity.
  - left. destruct (is_open s st && _); reflexivity.
  - left. destruct (nlen (s_out st) <? out_cap); reflexivity.
  - left. destruct (s_box st h); [reflexivity|]. destruct (gone h st); reflexivity.
  - left. reflexivity.
  - left. destruct (s_phase st); try reflexivity. destruct (s_work st) as [|[[s0 d0] h0] w]; reflexivity.
  - left. destruct (s_phase st); try reflexivity. destruct (s_out st); reflexivity.
  - left. destruct (s_phase st); try reflexivity. destruct b; [apply closed_shut|reflexivity].
  - left. destruct (s_phase st); try reflexivity. apply closed_shut.
  - left. destruct (s_phase st); try reflexivity. destruct (s_wbuf st) as [|x w]; [reflexivity|].
    cbn [s_wbuf set_wbuf]. destruct (skipn _ (x :: w)), (s_shut st) eqn:Hs; cbn; congruence.
  - left. destruct (s_phase st); try reflexivity. destruct (s_wbuf st) as [|x w]; reflexivity.
  - destruct (s_phase st) as [| |h f|r]; try (left; reflexivity).
    2:{ left. apply deliver_shut. }
    destruct (decode_frame (s_rbuf st)) as [|f rest|e rest|]; try (left; reflexivity).
    unfold handle. destruct f as [s d|s r|s d|s ms|u p]; cbn [s_verify set_rbuf];
      destruct (s_verify st); cbn [negb andb]; try (left; reflexivity); try (right; discriminate);
      try (cbn [s_map set_rbuf]; destruct (lookup N.eqb s (s_map st)) as [h|]; [|left; reflexivity];
           match goal with |- context [deliver h ?g ?z] => pose proof (deliver_shut h g z) as Hd; destruct (deliver h g z) end;
           left; exact Hd).
    destruct (check_succ c u p); [left; reflexivity|right; discriminate].
Qed.
Lemma shut_reach c es st tr : run c (s_init c) es = (st, tr) -> refused tr = [] -> s_shut st = false.
Proof.
  apply (run_reach c (fun st tr => refused tr = [] -> s_shut st = false)); [reflexivity|].
  intros st0 tr0 e IH H. rewrite refused_app in H. apply app_eq_nil in H as [H1 H2].
  destruct (shut_step c st0 e) as [E|E]; [rewrite E; auto|contradiction].
Qed.

(* ---- what the server makes of an honest client --------------------------------- *)
Lemma bytes_read_run c e1 e2 :
  prefix (bytes_read (snd (run c (s_init c) e1))) (bytes_read (snd (run c (s_init c) (e1 ++ e2)))).
Proof. rewrite run_app. cbn [snd]. rewrite bytes_read_app. apply prefix_app. Qed.

(* A client session and a server session connected to each other. *)
Record link (c : creds) (ms : list mapping) (k0 : kst) (kes : list kev) (es : list ev)
  (kst : kst) (ktr : list keff) (st : sst) (tr : list eff) : Prop := Link {
  l_start : starts c ms k0;
  l_fit : kfit k0;
  l_client : krun k0 kes = (kst, ktr);
  l_server : run c (s_init c) es = (st, tr);
  l_up : prefix (bytes_read tr) (kwritten ktr);
  l_down : prefix (kbytes_read ktr) (written tr);
  l_creds : (exists u p, c = Creds (Some u) (Some p) /\ short_string u /\ short_string p) \/
            c = Creds None None;
  l_maps : fits (FMapping 0 ms) /\ Forall (fun m => m_name m <> []) ms;
  l_kev : Forall kev_ok kes;
  l_ev : Forall ev_ok es
}.
Lemma tunnel_link c ms kes es kst ktr st tr :
  tunnel c ms kes es kst ktr st tr -> link c ms (k_init c ms) kes es kst ktr st tr.
Proof. intros []. constructor; try assumption; [apply starts_init|apply kfit_init]. Qed.

Section Honest.
Context (c : creds) (ms : list mapping) (k0 : kst) (kes : list kev) (es : list ev)
  (kst0 : kst) (ktr : list keff) (st : sst) (tr : list eff)
  (T : link c ms k0 kes es kst0 ktr st tr).

Let up := greeting c ms ++ kpushed k0 kes.

Lemma up_modest : Forall modest (kpushed k0 kes).
Proof. apply kfit_run; [exact (l_fit _ _ _ _ _ _ _ _ _ T)|exact (l_kev _ _ _ _ _ _ _ _ _ T)]. Qed.
Lemma up_fits : Forall fits up.
Proof.
  apply Forall_app. split.
  - destruct (l_maps _ _ _ _ _ _ _ _ _ T) as (Hm & _). unfold greeting.
    destruct (l_creds _ _ _ _ _ _ _ _ _ T) as [(u & p & -> & Hu & Hp)| ->]; destruct ms; cbn [app];
      repeat first [apply Forall_nil | apply Forall_cons]; first [exact Hm | split; assumption].
  - eapply Forall_impl; [|exact up_modest]. intros f Hf. exact (proj1 Hf).
Qed.
Lemma up_wire : prefix (kwritten ktr) (wire up).
Proof.
  destruct (l_maps _ _ _ _ _ _ _ _ _ T) as (Hm & _). unfold up.
  rewrite <- (client_wire_from c ms k0 kes kst0 ktr (l_start _ _ _ _ _ _ _ _ _ T) (l_creds _ _ _ _ _ _ _ _ _ T) Hm (l_client _ _ _ _ _ _ _ _ _ T)).
  apply prefix_app.
Qed.

Lemma server_sees e1 e2 : es = e1 ++ e2 ->
  frames (bytes_read (snd (run c (s_init c) e1)))
    = map public (complete (nlen (bytes_read (snd (run c (s_init c) e1)))) up) /\
  prefix (decoded (snd (run c (s_init c) e1))) (map public up).
Proof.
  intros E. pose proof (l_server _ _ _ _ _ _ _ _ _ T) as R.
  assert (P : prefix (bytes_read (snd (run c (s_init c) e1))) (wire up)).
  { eapply prefix_trans; [apply (bytes_read_run c e1 e2)|]. rewrite <- E, R. cbn [snd].
    eapply prefix_trans; [exact (l_up _ _ _ _ _ _ _ _ _ T)|exact up_wire]. }
  split; [apply frames_prefix; [exact up_fits|exact P]|].
  destruct (run c (s_init c) e1) as [st1 tr1] eqn:E1. cbn [snd] in *.
  destruct (source c e1 st1 tr1 E1) as [[more S] _].
  eapply prefix_trans; [exists more; exact S|]. apply frames_prefix_public; [exact up_fits|exact P].
Qed.

Lemma last_maps_modest acc fs : Forall modest fs -> last_maps acc (map public fs) = acc.
Proof.
  intros H. revert acc. induction H as [|f fs [_ Hf] _ IH]; intros acc; [reflexivity|].
  destruct f; cbn in *; try contradiction; apply IH.
Qed.
Lemma prefix_forall {A} (P : A -> Prop) (a b : list A) : prefix a b -> Forall P b -> Forall P a.
Proof. intros [x ->] H. apply Forall_app in H. exact (proj1 H). Qed.

Lemma prefix_map_inv {A B} (f : A -> B) a (b : list A) : prefix a (map f b) -> exists b', a = map f b' /\ prefix b' b.
Proof.
  revert b; induction a as [|x a IH]; intros b [more E].
  - exists []. split; [reflexivity|]. exists b. reflexivity.
  - destruct b as [|y b]; cbn in E; [discriminate|]. injection E as Ex E.
    destruct (IH b (ex_intro _ more E)) as (b' & -> & [m ->]).
    exists (y :: b'). split; [cbn; rewrite Ex; reflexivity|]. exists m. reflexivity.
Qed.
Lemma prefix_app_cases {A} (a b c0 : list A) : prefix a (b ++ c0) ->
  prefix a b \/ exists c1, a = b ++ c1 /\ prefix c1 c0.
Proof.
  revert a; induction b as [|x b IH]; intros a H.
  - right. exists a. split; [reflexivity|exact H].
  - destruct a as [|y a]; [left; exists (x :: b); reflexivity|].
    destruct H as [m E]. cbn in E. injection E as <- E.
    destruct (IH a (ex_intro _ m E)) as [[m' ->]|(c1 & -> & P)].
    + left. exists m'. reflexivity.
    + right. exists c1. split; [reflexivity|exact P].
Qed.

Lemma greeting_maps : last_maps [] (map public (greeting c ms)) = map public_mapping ms.
Proof. unfold greeting. destruct (l_creds _ _ _ _ _ _ _ _ _ T) as [(u & p & -> & _)| ->]; destruct ms; reflexivity. Qed.

Lemma server_maps e1 e2 : es = e1 ++ e2 ->
  registered (snd (run c (s_init c) e1)) = [] \/
  registered (snd (run c (s_init c) e1)) = map public_mapping ms.
Proof.
  intros E. destruct (server_sees e1 e2 E) as [_ P].
  destruct (run c (s_init c) e1) as [st1 tr1] eqn:E1. cbn [snd] in *.
  rewrite (registered_decoded c e1 st1 tr1 E1). unfold up in P. rewrite map_app in P.
  destruct (prefix_app_cases _ _ _ P) as [P1|(c1 & -> & P1)].
  - destruct (l_creds _ _ _ _ _ _ _ _ _ T) as [(u & p & -> & _)| ->]; unfold greeting in P1; cbn [app] in P1; destruct P1 as [m Em].
    + destruct ms as [|m1 ms1]; cbn [app map public] in Em; destruct (decoded tr1) as [|f1 [|f2 [|f3 l]]]; cbn in Em; try discriminate; try (left; reflexivity).
      * injection Em as <- _. left; reflexivity.
      * injection Em as <- _. left; reflexivity.
      * injection Em as <- <- _. right; reflexivity.
    + destruct ms as [|m1 ms1]; cbn [app map public] in Em; destruct (decoded tr1) as [|f1 [|f2 l]]; cbn in Em; try discriminate; try (left; reflexivity).
      injection Em as <- _. right; reflexivity.
  - right. rewrite last_maps_app, greeting_maps.
    destruct (prefix_map_inv _ _ _ P1) as (b' & -> & Pb).
    apply last_maps_modest. exact (prefix_forall _ _ _ Pb up_modest).
Qed.

Lemma server_names e1 e2 : es = e1 ++ e2 -> good_names (s_maps (fst (run c (s_init c) e1))).
Proof.
  intros E. pose proof (server_maps e1 e2 E) as H.
  destruct (run c (s_init c) e1) as [st1 tr1] eqn:E1. cbn [fst snd] in *.
  rewrite (proj1 (registered_reach c e1 st1 tr1 E1)).
  destruct H as [-> | ->]; [constructor|].
  destruct (l_maps _ _ _ _ _ _ _ _ _ T) as ((_ & _ & Hf & _) & Hn).
  unfold good_names. rewrite Forall_map. rewrite Forall_forall in *. intros m Hm.
  split; [exact (Hn m Hm)|]. exact (proj1 (Hf m Hm)).
Qed.

Let down := pushed c (s_init c) es.
Lemma down_fits : Forall fits down.
Proof. apply sfit_reach; [exact (l_ev _ _ _ _ _ _ _ _ _ T)|exact server_names]. Qed.
Lemma down_wire : prefix (written tr) (wire down).
Proof.
  destruct (server_wire c es st tr (l_server _ _ _ _ _ _ _ _ _ T)) as (q & _ & W & _).
  unfold down. rewrite <- W. apply prefix_app.
Qed.
Lemma client_sees : prefix (kdecoded ktr) (map public down) /\
  frames (kbytes_read ktr) = map public (complete (nlen (kbytes_read ktr)) down).
Proof.
  assert (P : prefix (kbytes_read ktr) (wire down)).
  { eapply prefix_trans; [exact (l_down _ _ _ _ _ _ _ _ _ T)|exact down_wire]. }
  destruct (ksource_from _ _ _ _ _ _ (l_start _ _ _ _ _ _ _ _ _ T) (l_client _ _ _ _ _ _ _ _ _ T)) as [[more S] _].
  split; [|apply frames_prefix; [exact down_fits|exact P]].
  eapply prefix_trans; [exists more; exact S|]. apply frames_prefix_public; [exact down_fits|exact P].
Qed.

(* -- login -- *)
Lemma honest_not_refused : refused tr = [].
Proof.
  pose proof (l_server _ _ _ _ _ _ _ _ _ T) as R.
  destruct (l_creds _ _ _ _ _ _ _ _ _ T) as [(u & p & Ec & Hu & Hp)|Ec].
  2:{ exact (proj2 (no_refusal_when_open c es st tr Ec R)). }
  destruct (refused tr) as [|f l] eqn:Er; [reflexivity|exfalso].
  assert (Hin : In (ORefused f) tr).
  { unfold refused in Er. assert (H : In f (refused tr)) by (unfold refused; rewrite Er; left; reflexivity).
    unfold refused in H. apply in_flat_map in H as (o & Ho & H). destruct o; cbn in H; try contradiction.
    destruct H as [<-|[]]. exact Ho. }
  assert (Hc : c_user c <> None \/ c_pass c <> None) by (left; rewrite Ec; discriminate).
  destruct (refused_closes c es st tr f Hc R Hin) as (_ & (fs & Hf) & Hm & _).
  destruct (server_sees es [] (eq_sym (app_nil_r es))) as [S _]. rewrite R in S. cbn [snd] in S.
  rewrite Hf in S. unfold up, greeting in S. rewrite Ec in S. cbn [app complete] in S.
  destruct (_ <=? _); cbn [map public] in S; [|discriminate]. injection S as -> _.
  apply (Hm u p eq_refl). rewrite Ec. split; intros x Ex; cbn in Ex; congruence.
Qed.

Lemma honest_registered :
  nlen (wire (greeting c ms)) <= nlen (bytes_read tr) -> s_phase st = PSelect ->
  registered tr = map public_mapping ms.
Proof.
  intros Hl Hp. pose proof (l_server _ _ _ _ _ _ _ _ _ T) as R.
  destruct (source c es st tr R) as [_ S]. specialize (S Hp (shut_reach c es st tr R honest_not_refused)).
  destruct (server_sees es [] (eq_sym (app_nil_r es))) as [F _]. rewrite R in F. cbn [snd] in F.
  rewrite S in F. rewrite (registered_decoded c es st tr R), F.
  assert (E : exists k, complete (nlen (bytes_read tr)) up = greeting c ms ++ k /\ prefix k (kpushed k0 kes)).
  { unfold up. generalize (nlen (bytes_read tr)) Hl. generalize (greeting c ms). intros g.
    induction g as [|f g IH]; intros n Hn.
    - exists (complete n (kpushed k0 kes)). split; [reflexivity|apply complete_prefix].
    - cbn [app complete]. rewrite wire_cons, nlen_app in Hn.
      replace (nlen (fst (encode f)) <=? n) with true by lia.
      destruct (IH (n - nlen (fst (encode f)))) as (k & -> & P); [lia|]. exists k. split; [reflexivity|exact P]. }
  destruct E as (k & -> & P). rewrite map_app, last_maps_app, greeting_maps.
  apply last_maps_modest. exact (prefix_forall _ _ _ P up_modest).
Qed.

(* -- streams -- *)
Lemma create_in fs s d : In (FCreate s d) (map public fs) -> In (s, d) (creates fs).
Proof.
  intros H. apply in_map_iff in H as (f & E & Hin). unfold creates. apply in_flat_map.
  exists f. split; [exact Hin|]. destruct f; cbn in E; try discriminate. injection E as <- <-. left; reflexivity.
Qed.

Lemma honest_create s dom : In (FCreate s dom) (kdecoded ktr) ->
  exists v d e1 e2, dom = Some d /\ es = e1 ++ EvVisit s v :: e2 /\ wanted (map public_mapping ms) v d.
Proof.
  intros Hin. pose proof (prefix_in _ _ _ (proj1 client_sees) Hin) as H. apply create_in in H.
  destruct (server_wire c es st tr (l_server _ _ _ _ _ _ _ _ _ T)) as (q & Hq & _ & W & _).
  fold down in W. assert (H' : In (s, dom) (map (fun x => (fst x, Some (snd x))) q)).
  { rewrite <- W. apply in_app_iff. left. exact H. }
  apply in_map_iff in H' as ([s' d] & E & Hd). cbn [fst snd] in E. injection E as -> <-.
  destruct (requests_in c es q s d Hq Hd) as (e1 & v & e2 & E & Wn).
  exists v, d, e1, e2. split; [reflexivity|]. split; [exact E|].
  destruct (server_maps e1 (EvVisit s v :: e2) E) as [H0|H0]; rewrite H0 in Wn; [|exact Wn].
  exfalso. destruct v as [host|mode]; cbn [wanted] in Wn.
  - destruct Wn as (_ & m & [] & _).
  - destruct Wn as (a & m & b & Ea & _). destruct a; discriminate.
Qed.

Lemma wanted_public v d : wanted (map public_mapping ms) v d -> wanted ms v d.
Proof.
  destruct v as [host|mode]; cbn [wanted].
  - intros (-> & m & Hin & E). split; [reflexivity|]. apply in_map_iff in Hin as (m' & <- & Hin').
    exists m'. split; [exact Hin'|exact E].
  - intros (a & m & b & E & Hm & Hb & ->).
    apply map_eq_app in E as (a' & l & El & <- & E). apply map_eq_cons in E as (m' & b' & -> & <- & <-). rewrite El.
    exists a', m', b'. repeat split; try assumption. rewrite Forall_map in Hb. exact Hb.
Qed.

Lemma honest_contact s h ad : In (QConnect s h ad) ktr ->
  exists v d m, In (EvVisit s v) es /\ wanted ms v d /\ serves ms d m /\ m_local m = Some ad.
Proof.
  intros Hin. pose proof (l_client _ _ _ _ _ _ _ _ _ T) as R.
  apply in_split in Hin as (a & b & E).
  destruct (cinv_from _ _ _ _ _ _ (l_start _ _ _ _ _ _ _ _ _ T) R) as (_ & _ & _ & G0).
  destruct (G0 _ _ _ E) as (a' & dom & ->). clear G0.
  rewrite <- app_assoc in E. cbn [app] in E.
  assert (Hd : In (FCreate s dom) (kdecoded ktr)).
  { unfold kdecoded. apply in_flat_map. exists (QDecoded (FCreate s dom)).
    split; [rewrite E; apply in_app_iff; right; left; reflexivity|left; reflexivity]. }
  destruct (honest_create s dom Hd) as (v & d & e1 & e2 & -> & -> & W).
  destruct (cinv_from _ _ _ _ _ _ (l_start _ _ _ _ _ _ _ _ _ T) R) as (_ & _ & G & _).
  destruct (G _ _ _ _ E) as [[(m & h' & x & b' & Hs & Eb & Hx)|(_ & b' & Eb)]|(_ & G2 & _)].
  - injection Eb as <- <- _. exists v, d, m. split; [apply in_app_iff; right; left; reflexivity|].
    split; [apply wanted_public; exact W|]. split; [exact Hs|].
    destruct Hx as [[_ Ex]|[(_ & ad' & Em & Ex)|(_ & _ & Ex)]]; try discriminate. injection Ex as ->. exact Em.
  - discriminate.
  - exfalso. apply (G2 (QBind s h)); [left; reflexivity|exact I].
Qed.

Lemma payload_public s fs : payload s (map public fs) = payload s fs.
Proof.
  induction fs as [|f fs IH]; [reflexivity|]. cbn [map payload flat_map]. fold (payload s fs). 
  change (flat_map _ (map public fs)) with (payload s (map public fs)). rewrite IH. destruct f; reflexivity.
Qed.
Lemma payload_prefix s a b : prefix a b -> prefix (payload s a) (payload s b).
Proof. intros [x ->]. rewrite payload_app. apply prefix_app. Qed.

(* the bytes of a stream, in both directions *)
Lemma honest_down s : prefix (payload s (kdecoded ktr)) (visitor_bytes c s (s_init c) es).
Proof.
  eapply prefix_trans; [apply payload_prefix; exact (proj1 client_sees)|].
  rewrite payload_public.
  destruct (server_wire c es st tr (l_server _ _ _ _ _ _ _ _ _ T)) as (q & _ & _ & _ & W).
  rewrite <- W. apply prefix_app.
Qed.
Lemma honest_up s : prefix (payload s (decoded tr)) (payload s (k_out k0) ++ service_bytes s k0 kes).
Proof.
  destruct (server_sees es [] (eq_sym (app_nil_r es))) as [_ P].
  rewrite (l_server _ _ _ _ _ _ _ _ _ T) in P. cbn [snd] in P.
  eapply prefix_trans; [apply payload_prefix; exact P|]. rewrite payload_public. unfold up.
  rewrite payload_app.
  assert (G : payload s (greeting c ms) = []).
  { unfold greeting. destruct (l_creds _ _ _ _ _ _ _ _ _ T) as [(u & p & -> & _)| ->]; destruct ms; reflexivity. }
  rewrite G. cbn [app].
  pose proof (kpayload kes k0 (starts_stuck _ _ _ (l_start _ _ _ _ _ _ _ _ _ T)) s) as K.
  rewrite <- K. apply prefix_app.
Qed.
End Honest.
