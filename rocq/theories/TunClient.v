(* The client end of the tunnel: what goes onto the wire. *)
From Coq Require Import String.
From Verif Require Import Base Text ProtModel ProtSpec ProtProofs ProtStream CsModel CsSpec CsProofs
  CsRoute CcModel CcSpec CcProofs CcCreate TunSpec TunServer.
Open Scope N_scope.

Lemma krun_cons st e es : krun st (e :: es) =
  (fst (krun (fst (kstep st e)) es), snd (kstep st e) ++ snd (krun (fst (kstep st e)) es)).
Proof. cbn [krun]. destruct (kstep st e) as [st1 o1]. cbn [fst snd]. destruct (krun st1 es). reflexivity. Qed.
Lemma krun_app es1 es2 : forall st,
  krun st (es1 ++ es2) =
  (fst (krun (fst (krun st es1)) es2), snd (krun st es1) ++ snd (krun (fst (krun st es1)) es2)).
Proof.
  induction es1 as [|e es1 IH]; intros st.
  - cbn. destruct (krun st es2); reflexivity.
  - cbn [app]. rewrite !krun_cons, IH. cbn [fst snd]. rewrite app_assoc. reflexivity.
Qed.

(* what a step appends to the send buffer, and to the queue of outgoing frames *)
Definition kpush1 (st : kst) (e : kev) : list frame :=
  match e with
  | KWork => match k_phase st, k_work st with KSelect, (s, d, _) :: _ => [FCreate s d] | _, _ => [] end
  | KOut => match k_phase st, k_out st with KSelect, f :: _ => [f] | _, _ => [] end
  | _ => []
  end.
Definition kput1 (st : kst) (e : kev) : list frame :=
  match e with
  | KData s d => if nlen (k_out st) <? out_cap then [FData s d] else []
  | KClose s r => if nlen (k_out st) <? out_cap then [FClose s r] else []
  | KConnErr h => match lookup N.eqb h (k_conn st) with
                  | Some s => if nlen (k_out st) <? out_cap then [FClose s []] else []
                  | None => [] end
  | KStep =>
    match k_phase st with
    | KDecode => match decode_frame (k_rbuf st) with
                 | DFrame (FCreate s dom) _ =>
                   match choose (k_maps st) (asked dom) with
                   | None => if nlen (k_out st) <? out_cap then [FClose s []] else []
                   | Some _ => [] end
                 | _ => [] end
    | KStuck f => if nlen (k_out st) <? out_cap then [f] else []
    | _ => [] end
  | _ => []
  end.

Record kfacts (st : kst) (e : kev) : Prop := {
  kf_wire : kwritten (snd (kstep st e)) ++ k_wbuf (fst (kstep st e)) = k_wbuf st ++ wire (kpush1 st e);
  kf_out : match e with
           | KOut => kpush1 st e ++ k_out (fst (kstep st e)) = k_out st
           | _ => k_out (fst (kstep st e)) = k_out st ++ kput1 st e end
}.

Lemma ktry_send_k h f st : kwritten (snd (ktry_send h f st)) = [] /\
  k_wbuf (fst (ktry_send h f st)) = k_wbuf st /\ k_out (fst (ktry_send h f st)) = k_out st.
Proof. unfold ktry_send. destruct (kgone h st || _); repeat split. Qed.

Lemma kclosed_k st : kwritten (snd (ktunnel_closed st)) = [] /\
  k_wbuf (fst (ktunnel_closed st)) = k_wbuf st /\ k_out (fst (ktunnel_closed st)) = k_out st.
Proof.
  unfold ktunnel_closed. pose proof (ksay_bye_w (k_map st) st) as H.
  destruct (ksay_bye (k_map st) st) as [st' es]. cbn [fst snd] in *. destruct H as (A & B & C & D).
  rewrite kwritten_app, A. repeat split; assumption.
Qed.

Ltac kf0 := constructor; cbn; rewrite ?app_nil_r; reflexivity.

Lemma kstep_facts st e : kfacts st e.
Proof.
  assert (Z : forall st' o, kwritten o = [] -> k_wbuf st' = k_wbuf st -> k_out st' = k_out st ->
     kpush1 st e = [] -> kput1 st e = [] -> e <> KOut -> kstep st e = (st', o) -> kfacts st e).
  { intros st' o A B C D E F G. constructor; rewrite G; cbn [fst snd].
    - rewrite A, B, D, app_nil_r. reflexivity.
    - rewrite C, E, app_nil_r. destruct e; try reflexivity. congruence. }
  destruct e as [s|s d|s r|h|h|h| | |b| |n| |].
  - constructor; cbn [kstep kpush1 kput1]; destruct (nlen (k_work st) <? work_cap); cbn; rewrite ?app_nil_r; reflexivity.
  - constructor; cbn [kstep kpush1 kput1]; destruct (nlen (k_out st) <? out_cap); cbn; rewrite ?app_nil_r; reflexivity.
  - constructor; cbn [kstep kpush1 kput1]; destruct (nlen (k_out st) <? out_cap); cbn; rewrite ?app_nil_r; reflexivity.
  - constructor; cbn [kstep kpush1 kput1]; (destruct (k_box st h); [|destruct (kgone h st)]); cbn; rewrite ?app_nil_r; reflexivity.
  - kf0.
  - constructor; cbn [kstep kpush1 kput1]; (destruct (lookup N.eqb h (k_conn st)); [destruct (nlen (k_out st) <? out_cap)|]);
      cbn; rewrite ?app_nil_r; reflexivity.
  - constructor; cbn [kstep kpush1 kput1]; destruct (k_phase st); try (cbn; rewrite ?app_nil_r; reflexivity);
      destruct (k_work st) as [|[[s0 d0] h0] w]; cbn; rewrite ?app_nil_r; reflexivity.
  - constructor; cbn [kstep kpush1 kput1]; destruct (k_phase st); try (cbn; rewrite ?app_nil_r; reflexivity);
      destruct (k_out st) eqn:Eo; cbn; rewrite ?app_nil_r, ?Eo; reflexivity.
  - destruct (k_phase st) eqn:Hp; destruct b as [|x b];
      try (apply (Z st []); try reflexivity; try discriminate; cbn [kstep]; rewrite Hp; reflexivity).
    + destruct (kclosed_k st) as (A & B & C).
      apply (Z (fst (ktunnel_closed st)) (snd (ktunnel_closed st))); try assumption; try reflexivity; try discriminate.
      cbn [kstep]. rewrite Hp. destruct (ktunnel_closed st); reflexivity.
    + eapply Z; try (cbn [kstep]; rewrite Hp; reflexivity); try reflexivity; discriminate.
  - destruct (k_phase st) eqn:Hp;
      try (apply (Z st []); try reflexivity; try discriminate; cbn [kstep]; rewrite Hp; reflexivity).
    destruct (kclosed_k st) as (A & B & C).
    apply (Z (fst (ktunnel_closed st)) (snd (ktunnel_closed st))); try assumption; try reflexivity; try discriminate.
    cbn [kstep]. rewrite Hp. destruct (ktunnel_closed st); reflexivity.
  - constructor; cbn [kstep kpush1 kput1]; destruct (k_phase st) eqn:Hp; try (cbn; rewrite ?app_nil_r; reflexivity);
      destruct (k_wbuf st) as [|x w] eqn:Ew; cbn [fst snd kwritten flat_map app k_wbuf kset_phase kset_wbuf k_out wire];
      rewrite ?app_nil_r, ?Ew; try reflexivity.
    apply firstn_skipn.
  - destruct (k_phase st) eqn:Hp; destruct (k_wbuf st) eqn:Ew;
      (eapply Z; try (cbn [kstep]; rewrite Hp, ?Ew; reflexivity); try reflexivity; try discriminate; cbn; rewrite ?Ew; reflexivity).
  - destruct (k_phase st) as [| |f|x] eqn:Hp;
      try (apply (Z st []); try reflexivity; try discriminate; cbn [kstep kput1]; rewrite Hp; reflexivity).
    2:{ constructor; cbn [kstep kpush1 kput1]; rewrite Hp; destruct (nlen (k_out st) <? out_cap); cbn; rewrite ?app_nil_r; reflexivity. }
    destruct (decode_frame (k_rbuf st)) as [|f rest|e rest|] eqn:Hd;
      try (eapply Z; try (cbn [kstep kput1]; rewrite Hp, Hd; reflexivity); try reflexivity; discriminate).
    destruct f as [s dom|s r|s d|s ms|u p].
    + constructor; cbn [kstep kpush1 kput1]; rewrite Hp, Hd; cbn [khandle k_maps kset_rbuf]; unfold asked; destruct dom as [dm|]; cbv zeta;
        (match goal with |- context [choose ?a ?b] => destruct (choose a b) as [m|] end;
         [destruct (is_proxy m); [|destruct (m_local m)]|
          cbn [k_out kset_rbuf]; destruct (nlen (k_out st) <? out_cap)]); cbn; rewrite ?app_nil_r; reflexivity.
    + assert (Es : kstep st KStep = khandle (FClose s r) (kset_rbuf rest st)) by (cbn [kstep]; rewrite Hp, Hd; reflexivity).
      cbn [khandle] in Es. cbn [k_map kset_rbuf] in Es.
      destruct (s =? 0); [|destruct (lookup N.eqb s (k_map st)) as [h|]].
      1,3: (eapply Z; try exact Es; try reflexivity; try discriminate; cbn [kput1]; rewrite Hp, Hd; reflexivity).
      pose proof (ktry_send_k h (FClose s r) (kset_rbuf rest st)) as (A & B & C).
      destruct (ktry_send h (FClose s r) (kset_rbuf rest st)) as [st' es]. cbn [fst snd] in *.
      eapply Z; try exact Es; try assumption; try reflexivity; try discriminate; cbn [kput1]; rewrite Hp, Hd; reflexivity.
    + assert (Es : kstep st KStep = khandle (FData s d) (kset_rbuf rest st)) by (cbn [kstep]; rewrite Hp, Hd; reflexivity).
      cbn [khandle] in Es. cbn [k_map kset_rbuf] in Es.
      destruct (lookup N.eqb s (k_map st)) as [h|].
      2: (eapply Z; try exact Es; try reflexivity; try discriminate; cbn [kput1]; rewrite Hp, Hd; reflexivity).
      pose proof (ktry_send_k h (FData s d) (kset_rbuf rest st)) as (A & B & C).
      destruct (ktry_send h (FData s d) (kset_rbuf rest st)) as [st' es]. cbn [fst snd] in *.
      eapply Z; try exact Es; try assumption; try reflexivity; try discriminate; cbn [kput1]; rewrite Hp, Hd; reflexivity.
    + eapply Z; try (cbn [kstep kput1]; rewrite Hp, Hd; reflexivity); try reflexivity; discriminate.
    + eapply Z; try (cbn [kstep kput1]; rewrite Hp, Hd; reflexivity); try reflexivity; discriminate.
Qed.

Fixpoint kpushed (st : kst) (es : list kev) : list frame :=
  match es with [] => [] | e :: es' => kpush1 st e ++ kpushed (fst (kstep st e)) es' end.

Lemma kwire es : forall st,
  kwritten (snd (krun st es)) ++ k_wbuf (fst (krun st es)) = k_wbuf st ++ wire (kpushed st es).
Proof.
  induction es as [|e es IH]; intros st; [cbn; rewrite app_nil_r; reflexivity|].
  rewrite krun_cons. cbn [fst snd kpushed]. destruct (kstep_facts st e) as [F _].
  rewrite kwritten_app, <- app_assoc, IH, app_assoc, F, wire_app, <- app_assoc. reflexivity.
Qed.

(* a frame in the queue, or sent, stays so *)
Lemma kqueued_stays es : forall st f, In f (k_out st) -> In f (kpushed st es ++ k_out (fst (krun st es))).
Proof.
  induction es as [|e es IH]; intros st f H; [exact H|].
  rewrite krun_cons. cbn [fst kpushed]. destruct (kstep_facts st e) as [_ F].
  assert (In f (kpush1 st e) \/ In f (k_out (fst (kstep st e)))) as [G|G].
  { destruct e; try (right; rewrite F; apply in_app_iff; left; exact H).
    rewrite <- F in H. apply in_app_iff in H. exact H. }
  - rewrite <- app_assoc. apply in_app_iff. left. exact G.
  - rewrite <- app_assoc. apply in_app_iff. right. apply IH. exact G.
Qed.

Lemma kpushed_app es1 es2 : forall st,
  kpushed st (es1 ++ es2) = kpushed st es1 ++ kpushed (fst (krun st es1)) es2.
Proof.
  induction es1 as [|e es1 IH]; intros st; [reflexivity|].
  cbn [app kpushed]. rewrite IH, krun_cons. cbn [fst]. rewrite app_assoc. reflexivity.
Qed.

(* the payload of a stream *)
Lemma kput1_payload s st e : (forall f, k_phase st = KStuck f -> exists s', f = FClose s' []) ->
  payload s (kput1 st e) =
  match e with KData s' d => if (s' =? s) && (nlen (k_out st) <? out_cap) then d else [] | _ => [] end.
Proof.
  intros Hk. destruct e; try reflexivity; cbn [kput1].
  - destruct (nlen (k_out st) <? out_cap); cbn; destruct (s0 =? s); cbn; rewrite ?app_nil_r; reflexivity.
  - destruct (nlen (k_out st) <? out_cap); reflexivity.
  - destruct (lookup N.eqb h (k_conn st)); [|reflexivity]. destruct (nlen (k_out st) <? out_cap); reflexivity.
  - destruct (k_phase st) as [| |f|x] eqn:Hp; try reflexivity.
    + destruct (decode_frame (k_rbuf st)) as [|f rest|e rest|]; try reflexivity.
      destruct f as [s0 dom|s0 r|s0 d|s0 ms|u p]; try reflexivity.
      destruct (choose (k_maps st) (asked dom)); [reflexivity|]. destruct (nlen (k_out st) <? out_cap); reflexivity.
    + destruct (Hk f eq_refl) as [s' ->]. destruct (nlen (k_out st) <? out_cap); reflexivity.
Qed.

Definition stuck_close (st : kst) : Prop := forall f, k_phase st = KStuck f -> exists s', f = FClose s' [].

Lemma stuck_close_step st e : stuck_close st -> stuck_close (fst (kstep st e)).
Proof.
  intros H. unfold stuck_close in *.
  assert (K : k_phase (fst (ktunnel_closed st)) = KEnd KClosed).
  { unfold ktunnel_closed. destruct (ksay_bye (k_map st) st). reflexivity. }
  destruct e as [s|s d|s r|h|h|h| | |b| |n| |]; cbn [kstep].
  - destruct (nlen (k_work st) <? work_cap); exact H.
  - destruct (nlen (k_out st) <? out_cap); exact H.
  - destruct (nlen (k_out st) <? out_cap); exact H.
  - destruct (k_box st h); [exact H|destruct (kgone h st); exact H].
  - exact H.
  - destruct (lookup N.eqb h (k_conn st)); [|exact H]. destruct (nlen (k_out st) <? out_cap); exact H.
  - destruct (k_phase st) eqn:Hp; try (cbn [fst]; rewrite Hp; exact H); destruct (k_work st) as [|[[? ?] ?] ?]; cbn; rewrite ?Hp; try exact H; discriminate.
  - destruct (k_phase st) eqn:Hp; try (cbn [fst]; rewrite Hp; exact H); destruct (k_out st); cbn; rewrite ?Hp; try exact H; discriminate.
  - destruct (k_phase st) eqn:Hp; try (destruct b; cbn [fst]; rewrite Hp; exact H); destruct b; [rewrite K|cbn]; discriminate.
  - destruct (k_phase st) eqn:Hp; try (cbn [fst]; rewrite Hp; exact H). rewrite K. discriminate.
  - destruct (k_phase st) eqn:Hp; try (cbn [fst]; rewrite Hp; exact H); destruct (k_wbuf st); cbn; rewrite ?Hp; try exact H; discriminate.
  - destruct (k_phase st) eqn:Hp; try (cbn [fst]; rewrite Hp; exact H); destruct (k_wbuf st); cbn; rewrite ?Hp; try exact H; discriminate.
  - destruct (k_phase st) as [| |f0|x] eqn:Hp; try (cbn [fst]; rewrite Hp; exact H).
    2:{ destruct (nlen (k_out st) <? out_cap); cbn; rewrite ?Hp; [discriminate|exact H]. }
    destruct (decode_frame (k_rbuf st)) as [|f rest|e rest|]; try (cbn; discriminate).
    assert (T : forall h g, k_phase (fst (ktry_send h g (kset_rbuf rest st))) = KDecode).
    { intros h g. unfold ktry_send. destruct (kgone _ _ || _); exact Hp. }
    destruct f as [s dom|s r|s d|s ms|u p]; cbn [khandle].
    + destruct (choose _ _) as [m|].
      * destruct (is_proxy m); [|destruct (m_local m)]; cbn; rewrite Hp; discriminate.
      * destruct (_ <? out_cap); cbn; [rewrite Hp; discriminate|]. intros f E. injection E as <-. exists s; reflexivity.
    + destruct (s =? 0); [cbn; rewrite Hp; discriminate|]. destruct (lookup _ _ _) as [h|]; [|cbn; rewrite Hp; discriminate].
      specialize (T h (FClose s r)). destruct (ktry_send _ _ _). cbn [fst] in *. rewrite T. discriminate.
    + destruct (lookup _ _ _) as [h|]; [|cbn; rewrite Hp; discriminate].
      specialize (T h (FData s d)). destruct (ktry_send _ _ _). cbn [fst] in *. rewrite T. discriminate.
    + cbn; rewrite Hp; discriminate.
    + cbn. discriminate.
Qed.
Lemma stuck_close_init c ms : stuck_close (k_init c ms).
Proof. intros f. cbn. destruct (snd (hello c ms)); discriminate. Qed.

Lemma kpayload es : forall st, stuck_close st -> forall s,
  payload s (kpushed st es) ++ payload s (k_out (fst (krun st es)))
  = payload s (k_out st) ++ service_bytes s st es.
Proof.
  induction es as [|e es IH]; intros st Hc s; [cbn; rewrite app_nil_r; reflexivity|].
  rewrite krun_cons. cbn [fst kpushed service_bytes].
  rewrite payload_app, <- app_assoc, (IH _ (stuck_close_step st e Hc)).
  destruct (kstep_facts st e) as [_ F]. pose proof (kput1_payload s st e Hc) as P.
  rewrite !app_assoc. f_equal.
  destruct e; try (rewrite F, payload_app; cbn [kpush1 payload flat_map app]; rewrite P; reflexivity).
  - cbn [kpush1]. rewrite F. cbn [kput1]. rewrite !app_nil_r.
    destruct (k_phase st); try reflexivity. destruct (k_work st) as [|[[? ?] ?] ?]; reflexivity.
  - rewrite <- payload_app, F, app_nil_r. reflexivity.
Qed.

(* ---- the greeting ---------------------------------------------------------- *)
Lemma hello_greeting c ms :
  (exists u p, c = Creds (Some u) (Some p) /\ short_string u /\ short_string p) \/ c = Creds None None ->
  fits (FMapping 0 ms) -> hello c ms = (wire (greeting c ms), None).
Proof.
  intros Hc Hf. destruct (roundtrip (FMapping 0 ms) [] Hf) as [E _].
  assert (Em : encode (FMapping 0 ms) = (fst (encode (FMapping 0 ms)), None)).
  { destruct (encode (FMapping 0 ms)); cbn [fst snd] in *; congruence. }
  unfold hello, greeting. destruct Hc as [(u & p & -> & Hu & Hp)| ->]; cbn [c_user c_pass].
  - assert (Ft : fits (FToken u p)) by (split; assumption).
    destruct (roundtrip (FToken u p) [] Ft) as [Et _].
    assert (Et' : encode (FToken u p) = (fst (encode (FToken u p)), None)).
    { destruct (encode (FToken u p)); cbn [fst snd] in *; congruence. }
    destruct ms as [|m ms]; try rewrite Em; rewrite Et'; unfold wseq; cbn [fst snd wire flat_map app]; rewrite ?app_nil_r; reflexivity.
  - destruct ms as [|m ms]; try rewrite Em; unfold wseq; cbn [fst snd wire flat_map app]; rewrite ?app_nil_r; reflexivity.
Qed.

(* A session starts: on the first connection and after every reconnection. *)
Definition starts (c : creds) (ms : list mapping) (k0 : kst) : Prop :=
  k_map k0 = [] /\ k_rbuf k0 = [] /\ k_wbuf k0 = fst (hello c ms) /\ k_maps k0 = ms /\
  k_phase k0 = match snd (hello c ms) with None => KSelect | Some e => KEnd (KError e) end.
Lemma starts_init c ms : starts c ms (k_init c ms).
Proof. repeat split. Qed.
Lemma starts_stuck c ms k0 : starts c ms k0 -> stuck_close k0.
Proof. intros (_ & _ & _ & _ & H) f. rewrite H. destruct (snd (hello c ms)); discriminate. Qed.

Lemma client_wire_from c ms k0 es st tr : starts c ms k0 ->
  (exists u p, c = Creds (Some u) (Some p) /\ short_string u /\ short_string p) \/ c = Creds None None ->
  fits (FMapping 0 ms) -> krun k0 es = (st, tr) ->
  kwritten tr ++ k_wbuf st = wire (greeting c ms ++ kpushed k0 es).
Proof.
  intros (_ & _ & Hw & _) Hc Hf H. pose proof (kwire es k0) as W. rewrite H in W. cbn [fst snd] in W.
  rewrite W, wire_app, Hw. f_equal. rewrite (hello_greeting c ms Hc Hf). reflexivity.
Qed.
Lemma client_wire c ms es st tr :
  (exists u p, c = Creds (Some u) (Some p) /\ short_string u /\ short_string p) \/ c = Creds None None ->
  fits (FMapping 0 ms) -> krun (k_init c ms) es = (st, tr) ->
  kwritten tr ++ k_wbuf st = wire (greeting c ms ++ kpushed (k_init c ms) es).
Proof. apply client_wire_from, starts_init. Qed.

Lemma ksource_from c ms k0 es st tr : starts c ms k0 -> krun k0 es = (st, tr) ->
  (exists more, frames (kbytes_read tr) = kdecoded tr ++ more) /\
  (k_phase st = KSelect -> frames (kbytes_read tr) = kdecoded tr).
Proof.
  intros (_ & Hr & _) H.
  assert (G : kph st tr).
  { revert H. apply (krun_reach kph).
    - split; [intros _; rewrite Hr; reflexivity|]. exists []. split; [constructor|intros _; symmetry; exact Hr].
    - intros. apply kph_step; assumption. }
  destruct G as (H2 & r & H3 & H4).
  pose proof (dsteps_frames _ _ _ H3) as E. split; [exists (frames r); exact E|].
  intros Hp. rewrite E, H4 by (rewrite Hp; discriminate).
  unfold frames. cbn [drain]. rewrite (H2 Hp). apply app_nil_r.
Qed.
Lemma cinv_from c ms k0 es st tr : starts c ms k0 -> krun k0 es = (st, tr) -> cinv ms st tr.
Proof.
  intros (_ & _ & _ & Hm & Hp). apply (krun_reach (cinv ms)).
  - split; [exact Hm|]. split.
    + intros f. rewrite Hp. destruct (snd (hello c ms)); discriminate.
    + split; [intros a s dom b E|intros a x b E]; destruct a; discriminate.
  - intros. apply cinv_step; assumption.
Qed.
