(* The server end of the tunnel: what is registered, what goes onto the wire. *)
From Coq Require Import String.
From Verif Require Import Base Text ProtModel ProtSpec ProtProofs ProtStream CsModel CsSpec CsProofs
  CsRoute CcModel CcSpec CcProofs TunSpec.
Open Scope N_scope.

(* ---- lists --------------------------------------------------------------- *)
Lemma creates_app a b : creates (a ++ b) = creates a ++ creates b.
Proof. apply flat_map_app. Qed.
Lemma payload_app s a b : payload s (a ++ b) = payload s a ++ payload s b.
Proof. apply flat_map_app. Qed.
Lemma prefix_app {A} (a b : list A) : prefix a (a ++ b).
Proof. exists b. reflexivity. Qed.
Lemma prefix_refl {A} (a : list A) : prefix a a.
Proof. exists []. symmetry. apply app_nil_r. Qed.
Lemma prefix_trans {A} (a b c : list A) : prefix a b -> prefix b c -> prefix a c.
Proof. intros [x ->] [y ->]. exists (x ++ y). symmetry. apply app_assoc. Qed.
Lemma prefix_in {A} (a b : list A) x : prefix a b -> In x a -> In x b.
Proof. intros [y ->] H. apply in_app_iff. left. exact H. Qed.

Lemma run_app c es1 es2 : forall st,
  run c st (es1 ++ es2) =
  (fst (run c (fst (run c st es1)) es2), snd (run c st es1) ++ snd (run c (fst (run c st es1)) es2)).
Proof.
  induction es1 as [|e es1 IH]; intros st; cbn [app run fst snd].
  - destruct (run c st es2); reflexivity.
  - destruct (step c st e) as [st1 o1]. rewrite IH. destruct (run c st1 es1) as [st2 o2]. cbn [fst snd].
    rewrite app_assoc. reflexivity.
Qed.

(* ---- registered mappings -------------------------------------------------- *)
Lemma registered_app a b :
  registered (a ++ b) = fold_left (fun acc e => match e with OMaps ms => ms | _ => acc end) b (registered a).
Proof. unfold registered. apply fold_left_app. Qed.

Definition mapless (e : eff) : Prop := match e with OMaps _ => False | _ => True end.
Lemma mapless_fold o : Forall mapless o -> forall acc,
  fold_left (fun acc e => match e with OMaps ms => ms | _ => acc end) o acc = acc.
Proof.
  induction 1 as [|e o He _ IH]; intros acc; [reflexivity|].
  destruct e; cbn in *; try contradiction; apply IH.
Qed.

Lemma say_bye_maps m : forall st, s_maps (fst (say_bye m st)) = s_maps st /\
  Forall mapless (snd (say_bye m st)) /\ s_work (fst (say_bye m st)) = s_work st /\
  s_out (fst (say_bye m st)) = s_out st /\ s_wbuf (fst (say_bye m st)) = s_wbuf st /\
  s_rbuf (fst (say_bye m st)) = s_rbuf st.
Proof.
  induction m as [|[s h] m IH]; intros st; [repeat split; constructor|].
  cbn [say_bye]. destruct (gone h st || negb (nlen (s_box st h) <? handler_cap)); [apply IH|].
  specialize (IH (set_box h (s_box st h ++ [FClose s []]) st)).
  destruct (say_bye m _) as [st' es]. cbn [fst snd] in *.
  destruct IH as (H1 & H2 & H3 & H4 & H5 & H6).
  repeat split; try assumption. constructor; [exact I|exact H2].
Qed.
Lemma closed_maps st : s_maps (fst (tunnel_closed st)) = s_maps st /\
  Forall mapless (snd (tunnel_closed st)) /\ s_work (fst (tunnel_closed st)) = s_work st /\
  s_out (fst (tunnel_closed st)) = s_out st /\ s_wbuf (fst (tunnel_closed st)) = s_wbuf st /\
  s_rbuf (fst (tunnel_closed st)) = s_rbuf st.
Proof.
  unfold tunnel_closed. pose proof (say_bye_maps (s_map st) st) as H.
  destruct (say_bye (s_map st) st) as [st' es]. cbn [fst snd] in *.
  destruct H as (H1 & H2 & H3 & H4 & H5 & H6). repeat split; try assumption.
  apply Forall_app. split; [exact H2|repeat constructor].
Qed.
Lemma deliver_maps h f st : s_maps (fst (deliver h f st)) = s_maps st /\
  Forall mapless (snd (deliver h f st)) /\ s_work (fst (deliver h f st)) = s_work st /\
  s_out (fst (deliver h f st)) = s_out st /\ s_wbuf (fst (deliver h f st)) = s_wbuf st /\
  s_rbuf (fst (deliver h f st)) = s_rbuf st /\ written (snd (deliver h f st)) = [].
Proof.
  unfold deliver. destruct (gone h st); [repeat split; repeat constructor|].
  destruct (nlen (s_box st h) <? handler_cap); repeat split; repeat constructor.
Qed.

(* ---- what a step puts onto the wire --------------------------------------- *)
Definition refuses (c : creds) (st : sst) (f : frame) : bool :=
  negb (s_verify st) && negb (match f with FToken u p => check_succ c u p | _ => false end).
Definition push1 (c : creds) (st : sst) (e : ev) : list frame :=
  match e with
  | EvWork => match s_phase st, s_work st with PSelect, (s, d, _) :: _ => [FCreate s d] | _, _ => [] end
  | EvOut => match s_phase st, s_out st with PSelect, f :: _ => [f] | _, _ => [] end
  | EvDecode =>
    match s_phase st with
    | PDecode => match decode_frame (s_rbuf st) with
                 | DFrame f _ => if refuses c st f then [refuse_frame] else []
                 | _ => [] end
    | _ => [] end
  | _ => []
  end.
(* and into the queues *)
Definition ask1 (st : sst) (e : ev) : list (N * option key) :=
  match e with
  | EvVisit s v =>
    match visit_domain (s_maps st) v with
    | Some d => if nlen (s_work st) <? work_cap then [(s, Some d)] else []
    | None => [] end
  | _ => []
  end.
Definition put1 (st : sst) (e : ev) : list frame :=
  match e with
  | EvData s d => if is_open s st && (nlen (s_out st) <? out_cap) then [FData s d] else []
  | EvClose s r => if nlen (s_out st) <? out_cap then [FClose s r] else []
  | _ => []
  end.
(* what became of the mappings *)
Definition map1 (c : creds) (st : sst) (e : ev) : option (list mapping) :=
  match e with
  | EvDecode =>
    match s_phase st with
    | PDecode => match decode_frame (s_rbuf st) with
                 | DFrame (FMapping _ ms) _ => if s_verify st then Some ms else None
                 | _ => None end
    | _ => None end
  | _ => None
  end.

Definition works (st : sst) : list (N * option key) := map fst (s_work st).

Record sstep_facts (c : creds) (st : sst) (e : ev) : Prop := {
  sf_wire : written (snd (step c st e)) ++ s_wbuf (fst (step c st e)) = s_wbuf st ++ wire (push1 c st e);
  sf_work : creates (push1 c st e) ++ works (fst (step c st e)) = works st ++ ask1 st e;
  sf_out : forall s, payload s (push1 c st e) ++ payload s (s_out (fst (step c st e)))
             = payload s (s_out st) ++ payload s (put1 st e);
  sf_maps : s_maps (fst (step c st e)) = match map1 c st e with Some ms => ms | None => s_maps st end;
  sf_reg : forall acc, fold_left (fun acc e => match e with OMaps ms => ms | _ => acc end)
                         (snd (step c st e)) acc
                       = match map1 c st e with Some ms => ms | None => acc end
}.

Definition out_inv (st : sst) : Prop := Forall (fun f => match f with FCreate _ _ => False | _ => True end) (s_out st).

Ltac sf0 := constructor; intros; cbn; rewrite ?app_nil_r; reflexivity.

Lemma sfacts_closed c st e : push1 c st e = [] -> ask1 st e = [] -> put1 st e = [] -> map1 c st e = None ->
  step c st e = tunnel_closed st -> sstep_facts c st e.
Proof.
  intros H1 H2 H3 H4 H5. destruct (closed_maps st) as (A & B & C & D & E & F).
  destruct (tunnel_closed_keeps st) as (_ & _ & _ & W).
  constructor; rewrite ?H1, ?H2, ?H3, ?H4, H5; intros; unfold works; rewrite ?A, ?C, ?D, ?E, ?W, ?app_nil_r;
    try reflexivity.
  apply mapless_fold. exact B.
Qed.

Lemma sfacts c st e : out_inv st -> sstep_facts c st e.
Proof.
  intros Ho. destruct e as [s v|s d|s r|h|h| | |b| |n| |].
  - (* visit *)
    constructor; intros; cbn [step push1 ask1 put1 map1];
      (destruct (visit_domain (s_maps st) v) as [d|]; [destruct (nlen (s_work st) <? work_cap)|]);
      cbn [fst snd open_new set_work s_wbuf s_out s_work s_maps written creates payload flat_map app works];
      rewrite ?app_nil_r; try reflexivity.
    unfold works. cbn [s_work open_new set_work]. rewrite map_app. reflexivity.
  - (* data *)
    constructor; intros; cbn [step push1 ask1 put1 map1];
      destruct (is_open s st && (nlen (s_out st) <? out_cap));
      cbn [fst snd set_out s_wbuf s_out s_work s_maps written creates flat_map app];
      unfold works; cbn [s_work set_out]; rewrite ?app_nil_r; try reflexivity.
    all: rewrite ?payload_app; cbn [payload flat_map app]; rewrite ?app_nil_r; reflexivity.
  - (* close *)
    constructor; intros; cbn [step push1 ask1 put1 map1];
      destruct (nlen (s_out st) <? out_cap);
      cbn [fst snd set_out s_wbuf s_out s_work s_maps written creates flat_map app];
      unfold works; cbn [s_work set_out]; rewrite ?app_nil_r; try reflexivity.
    all: rewrite ?payload_app; cbn [payload flat_map app]; rewrite ?app_nil_r; reflexivity.
  - (* consume *)
    constructor; intros; cbn [step push1 ask1 put1 map1];
      (destruct (s_box st h) as [|f q]; [|destruct (gone h st)]); cbn; rewrite ?app_nil_r; reflexivity.
  - sf0.
  - (* work *)
    constructor; intros; cbn [step push1 ask1 put1 map1];
      destruct (s_phase st); try (cbn; rewrite ?app_nil_r; reflexivity);
      destruct (s_work st) as [|[[s0 d0] h0] w] eqn:Ew; try (cbn; rewrite ?app_nil_r; reflexivity).
    all: unfold works; try rewrite Ew; cbn; rewrite ?app_nil_r; reflexivity.
  - (* out *)
    assert (Hw : forall f, In f (s_out st) -> creates [f] = []).
    { intros f Hin. unfold out_inv in Ho. rewrite Forall_forall in Ho. specialize (Ho f Hin).
      destruct f; try contradiction; reflexivity. }
    constructor; intros; cbn [step push1 ask1 put1 map1];
      destruct (s_phase st); try (cbn; rewrite ?app_nil_r; reflexivity);
      destruct (s_out st) as [|f o] eqn:Eo;
      try (rewrite ?Eo; cbn; rewrite ?app_nil_r; rewrite ?Eo; reflexivity).
    rewrite (Hw f (or_introl eq_refl)). cbn. rewrite app_nil_r. reflexivity.
  - (* read *)
    destruct (s_phase st) eqn:Hp; destruct b as [|x b];
      try (constructor; intros; cbn; rewrite ?Hp; cbn; rewrite ?app_nil_r; reflexivity).
    apply sfacts_closed; try reflexivity. cbn [step]. rewrite Hp. reflexivity.
  - destruct (s_phase st) eqn:Hp;
      try (constructor; intros; cbn; rewrite ?Hp; cbn; rewrite ?app_nil_r; reflexivity).
    apply sfacts_closed; try reflexivity. cbn [step]. rewrite Hp. reflexivity.
  - (* write *)
    destruct (s_phase st) eqn:Hp; try (constructor; intros; cbn; rewrite ?Hp; cbn; rewrite ?app_nil_r; reflexivity).
    destruct (s_wbuf st) as [|x w] eqn:Hwb;
      try (constructor; intros; cbn; rewrite ?Hp, ?Hwb; cbn; rewrite ?app_nil_r, ?Hwb; reflexivity).
    assert (E : exists r ph o', step c st (EvWrite n) =
       (set_phase ph (set_wbuf r st), OWrote (firstn (N.to_nat (N.min n (nlen (x :: w)))) (x :: w)) :: o') /\
       r = skipn (N.to_nat (N.min n (nlen (x :: w)))) (x :: w) /\ written o' = [] /\ Forall mapless o').
    { cbn [step]. rewrite Hp, Hwb. cbn [s_wbuf set_wbuf].
      set (r := skipn _ (x :: w)). exists r. unfold after_select. cbn [s_shut set_wbuf].
      destruct r as [|y r']; destruct (s_shut st); eexists; eexists;
        (split; [reflexivity|]); repeat split; repeat constructor. }
    destruct E as (r & ph & o' & E & Er & Wo & Mo).
    constructor; intros; rewrite E; cbn [fst snd push1 ask1 put1 map1 works s_work s_out s_maps s_wbuf set_phase set_wbuf].
    + cbn [written flat_map app]. fold (written o'). rewrite Wo, app_nil_r, Er.
      rewrite firstn_skipn, Hwb, app_nil_r. reflexivity.
    + cbn. rewrite app_nil_r. reflexivity.
    + cbn. rewrite app_nil_r. reflexivity.
    + reflexivity.
    + cbn [fold_left]. apply mapless_fold. exact Mo.
  - destruct (s_phase st) eqn:Hp; destruct (s_wbuf st) eqn:Hwb;
      constructor; intros; cbn; rewrite ?Hp, ?Hwb; cbn; rewrite ?app_nil_r, ?Hwb; reflexivity.
  - (* decode *)
    destruct (s_phase st) as [| |h f|r] eqn:Hp;
      try (constructor; intros; cbn; rewrite ?Hp; cbn; rewrite ?app_nil_r; reflexivity).
    2:{ destruct (deliver_maps h f st) as (A & B & C & D & E & F & W).
        constructor; intros; cbn [step push1 ask1 put1 map1]; rewrite Hp; unfold works;
          rewrite ?A, ?C, ?D, ?E, ?W; cbn; rewrite ?app_nil_r; try reflexivity.
        apply mapless_fold. exact B. }
    destruct (decode_frame (s_rbuf st)) as [|f rest|e rest|] eqn:Hd;
      try (constructor; intros; cbn; rewrite ?Hp, ?Hd; cbn; rewrite ?app_nil_r; reflexivity).
    assert (Es : step c st EvDecode = handle c f (set_rbuf rest st)) by (cbn [step]; rewrite Hp, Hd; reflexivity).
    assert (Ep : push1 c st EvDecode = if refuses c st f then [refuse_frame] else [])
      by (cbn [push1]; rewrite Hp, Hd; reflexivity).
    assert (Em : map1 c st EvDecode = match f with FMapping _ ms => if s_verify st then Some ms else None | _ => None end)
      by (cbn [map1]; rewrite Hp, Hd; destruct f; reflexivity).
    assert (Er : refuses c st f = true -> step c st EvDecode =
       (set_phase PSelect (set_shut true (set_wbuf (s_wbuf st ++ fst (encode refuse_frame)) (set_rbuf rest st))),
        [ORefused f]) /\ map1 c st EvDecode = None).
    { intros R. unfold refuses in R. apply andb_true_iff in R as [R1 R2].
      assert (Hv : s_verify st = false) by (destruct (s_verify st); [discriminate|reflexivity]).
      rewrite Es, Em. unfold handle. cbn [s_verify set_rbuf]. rewrite Hv. cbn [negb andb].
      destruct f as [s d|s r|s d|s ms|u p]; try (split; reflexivity).
      apply negb_true_iff in R2. rewrite R2. split; reflexivity. }
    destruct (refuses c st f) eqn:R.
    + destruct (Er eq_refl) as [E1 E2].
      constructor; intros; rewrite ?E1, ?Ep, ?E2; cbn [fst snd ask1 put1].
      * cbn [written flat_map app s_wbuf set_phase set_shut set_wbuf wire]. rewrite app_nil_r. reflexivity.
      * cbn. rewrite app_nil_r. reflexivity.
      * cbn. rewrite app_nil_r. reflexivity.
      * reflexivity.
      * reflexivity.
    + assert (H : s_verify st = true \/ exists u p, f = FToken u p /\ s_verify st = false /\ check_succ c u p = true).
      { unfold refuses in R. destruct (s_verify st); [left; reflexivity|]. cbn [negb andb] in R.
        right. destruct f as [s d|s r|s d|s ms|u p]; try discriminate.
        exists u, p. split; [reflexivity|]. split; [reflexivity|]. destruct (check_succ c u p); [reflexivity|discriminate]. }
      destruct H as [Hv|(u & p & -> & Hv & Hc)].
      2:{ constructor; intros; rewrite ?Es, ?Ep, ?Em; unfold handle; cbn [s_verify set_rbuf]; rewrite Hv, Hc; cbn;
            rewrite ?app_nil_r; reflexivity. }
      destruct f as [s d|s r|s d|s ms|u p];
        try (constructor; intros; rewrite ?Es, ?Ep, ?Em; unfold handle; cbn [s_verify set_rbuf]; rewrite Hv; cbn;
            rewrite ?app_nil_r; reflexivity).
      all: unfold handle in Es; cbn [s_verify set_rbuf s_map negb] in Es; rewrite Hv in Es; cbn [negb] in Es;
        destruct (lookup N.eqb s (s_map st)) as [h|];
        [|constructor; intros; rewrite ?Es, ?Ep, ?Em; cbn; rewrite ?app_nil_r; reflexivity].
      all: match type of Es with context [deliver ?h ?g ?z] =>
             destruct (deliver_maps h g z) as (A & B & C & D & E & F & W); destruct (deliver h g z) as [st' es'] end;
           cbn [fst snd] in *;
           constructor; intros; rewrite ?Es, ?Ep, ?Em; cbn [fst snd ask1 put1];
           unfold works; rewrite ?A, ?C, ?D, ?E; cbn [written flat_map app]; fold (written es'); rewrite ?W;
           cbn; rewrite ?app_nil_r; try reflexivity.
      all: apply mapless_fold; exact B.
Qed.

Lemma out_inv_step c st e : out_inv st -> out_inv (fst (step c st e)).
Proof.
  intros H. assert (forall st', s_out st' = s_out st -> out_inv st') as Hs by (unfold out_inv; intros ? ->; exact H).
  destruct e as [s v|s d|s r|h|h| | |b| |n| |]; cbn [step].
  - destruct (visit_domain (s_maps st) v); [|exact H]. destruct (nlen (s_work st) <? work_cap); exact H.
  - destruct (is_open s st && (nlen (s_out st) <? out_cap)); [|exact H].
    apply Forall_app. split; [exact H|repeat constructor].
  - destruct (nlen (s_out st) <? out_cap); [|exact H].
    apply Forall_app. split; [exact H|repeat constructor].
  - destruct (s_box st h); [exact H|]. destruct (gone h st); exact H.
  - exact H.
  - destruct (s_phase st); try exact H. destruct (s_work st) as [|[[s0 d0] h0] w]; exact H.
  - destruct (s_phase st); try exact H. destruct (s_out st) eqn:Eo; [exact H|].
    unfold out_inv in H. rewrite Eo in H. inversion H; assumption.
  - destruct (s_phase st); try exact H. destruct b; [|exact H]. apply Hs, closed_maps.
  - destruct (s_phase st); try exact H. apply Hs, closed_maps.
  - destruct (s_phase st); try exact H. destruct (s_wbuf st) as [|x w]; [exact H|].
    cbn [s_wbuf set_wbuf]. destruct (skipn _ (x :: w)), (s_shut st); exact H.
  - destruct (s_phase st); try exact H. destruct (s_wbuf st) as [|x w]; exact H.
  - destruct (s_phase st); try exact H.
    + destruct (decode_frame (s_rbuf st)) as [|f rest|e rest|]; try exact H.
      assert (Hd : forall h g, s_out (fst (deliver h g (set_rbuf rest st))) = s_out st) by (intros h g; exact (proj1 (proj2 (proj2 (proj2 (deliver_maps h g (set_rbuf rest st))))))).
      unfold handle. destruct f as [s d|s r|s d|s ms|u p]; cbn [s_verify set_rbuf];
        destruct (s_verify st); cbn [negb andb]; try exact H;
        try (cbn [s_map set_rbuf]; destruct (lookup N.eqb s (s_map st)) as [h|]; [|exact H];
             match goal with |- context [deliver h ?g ?z] => specialize (Hd h g); destruct (deliver h g z) end;
             apply Hs; exact Hd).
      destruct (check_succ c u p); exact H.
    + apply Hs. apply deliver_maps.
Qed.

(* ---- along a history ------------------------------------------------------ *)
Fixpoint pushed (c : creds) (st : sst) (es : list ev) : list frame :=
  match es with [] => [] | e :: es' => push1 c st e ++ pushed c (fst (step c st e)) es' end.
Fixpoint asks (c : creds) (st : sst) (es : list ev) : list (N * option key) :=
  match es with [] => [] | e :: es' => ask1 st e ++ asks c (fst (step c st e)) es' end.

Lemma run_cons c st e es : run c st (e :: es) =
  (fst (run c (fst (step c st e)) es), snd (step c st e) ++ snd (run c (fst (step c st e)) es)).
Proof. cbn [run]. destruct (step c st e) as [st1 o1]. cbn [fst snd]. destruct (run c st1 es). reflexivity. Qed.

Lemma put1_payload s st e : payload s (put1 st e) =
  match e with
  | EvData s' d => if (s' =? s) && is_open s' st && (nlen (s_out st) <? out_cap) then d else []
  | _ => [] end.
Proof.
  destruct e; try reflexivity; cbn [put1].
  - destruct (is_open s0 st), (nlen (s_out st) <? out_cap); cbn; destruct (s0 =? s); cbn; rewrite ?app_nil_r; reflexivity.
  - destruct (nlen (s_out st) <? out_cap); reflexivity.
Qed.

Lemma pushed_facts c es : forall st, out_inv st ->
  written (snd (run c st es)) ++ s_wbuf (fst (run c st es)) = s_wbuf st ++ wire (pushed c st es) /\
  creates (pushed c st es) ++ works (fst (run c st es)) = works st ++ asks c st es /\
  (forall s, payload s (pushed c st es) ++ payload s (s_out (fst (run c st es)))
     = payload s (s_out st) ++ visitor_bytes c s st es).
Proof.
  induction es as [|e es IH]; intros st H.
  - cbn. rewrite !app_nil_r. repeat split. intros s. rewrite app_nil_r. reflexivity.
  - specialize (IH _ (out_inv_step c st e H)). destruct IH as (I1 & I2 & I3).
    destruct (sfacts c st e H) as [F1 F2 F3 _ _].
    rewrite run_cons. cbn [fst snd pushed asks visitor_bytes].
    split; [|split].
    + rewrite written_app, <- app_assoc, I1, app_assoc, F1, <- app_assoc, wire_app. reflexivity.
    + rewrite creates_app, <- app_assoc, I2, app_assoc, F2, <- app_assoc. reflexivity.
    + intros s. rewrite payload_app, <- app_assoc, I3, app_assoc, F3, <- app_assoc.
      rewrite put1_payload. reflexivity.
Qed.

Lemma registered_reach c es st tr : run c (s_init c) es = (st, tr) -> s_maps st = registered tr /\ out_inv st.
Proof.
  apply (run_reach c (fun st tr => s_maps st = registered tr /\ out_inv st)).
  - split; [reflexivity|constructor].
  - intros st0 tr0 e [H Ho]. destruct (sfacts c st0 e Ho) as [_ _ _ F4 F5].
    split; [|apply out_inv_step; exact Ho].
    rewrite registered_app, F5, F4, <- H. reflexivity.
Qed.

(* the registered mappings are those of the last mapping frame accepted *)
Fixpoint last_maps (acc : list mapping) (fs : list frame) : list mapping :=
  match fs with [] => acc | FMapping _ ms :: fs' => last_maps ms fs' | _ :: fs' => last_maps acc fs' end.

(* ---- the visitors ---------------------------------------------------------- *)
Lemma wanted_ok ms v d : visit_domain ms v = Some d <-> wanted ms v d.
Proof.
  destruct v as [host|mode]; unfold visit_domain, wanted.
  - pose proof (last_match_spec (fun m => leqb (m_domain m) host) ms None) as L.
    destruct (last_match _ ms None) as [m|].
    + destruct L as [(a & b & -> & E & _)|[E _]]; [|discriminate].
      apply leqb_ok in E. split.
      * intros H. injection H as <-. split; [reflexivity|]. exists m.
        split; [apply in_app_iff; right; left; reflexivity|exact E].
      * intros [-> _]. reflexivity.
    + destruct L as [_ L]. split; [discriminate|]. intros (_ & m & Hin & E).
      rewrite Forall_forall in L. specialize (L m Hin). apply leqb_ok in E. congruence.
  - pose proof (last_match_spec (fun m => leqb (m_mode m) mode) ms None) as L.
    assert (NE : forall l, Forall (fun x => leqb (m_mode x) mode = false) l -> Forall (fun m' => m_mode m' <> mode) l).
    { intros l. apply Forall_impl. intros x Ex E. apply leqb_ok in E. congruence. }
    destruct (last_match _ ms None) as [m|].
    + destruct L as [(a & b & -> & E & Hb)|[E _]]; [|discriminate].
      apply leqb_ok in E. specialize (NE b Hb). split.
      * intros H. injection H as <-. exists a, m, b. repeat split; assumption.
      * intros (a' & m' & b' & Eq & E' & Hb' & ->). f_equal. f_equal.
        clear Hb. revert a' Eq. induction a as [|x a IH]; intros a' Eq.
        -- destruct a' as [|y a']; cbn in Eq; [congruence|]. injection Eq as <- ->.
           apply Forall_app in NE as [_ NE]. inversion NE; subst. congruence.
        -- destruct a' as [|y a']; cbn in Eq.
           ++ injection Eq as <- <-. apply Forall_app in Hb' as [_ Hb']. inversion Hb'; subst. congruence.
           ++ injection Eq as _ Eq. exact (IH a' Eq).
    + destruct L as [_ L]. split; [discriminate|]. intros (a & m & b & -> & E & _).
      apply Forall_app in L as [_ L]. inversion L as [|x l Hx _]; subst.
      exfalso. assert (leqb (m_mode m) (m_mode m) = true) by (apply leqb_ok; reflexivity). congruence.
Qed.

Lemma asks_app c es1 es2 : forall st,
  asks c st (es1 ++ es2) = asks c st es1 ++ asks c (fst (run c st es1)) es2.
Proof.
  induction es1 as [|e es1 IH]; intros st; [reflexivity|].
  cbn [app asks]. rewrite IH, run_cons. cbn [fst]. rewrite app_assoc. reflexivity.
Qed.
Lemma pushed_app c es1 es2 : forall st,
  pushed c st (es1 ++ es2) = pushed c st es1 ++ pushed c (fst (run c st es1)) es2.
Proof.
  induction es1 as [|e es1 IH]; intros st; [reflexivity|].
  cbn [app pushed]. rewrite IH, run_cons. cbn [fst]. rewrite app_assoc. reflexivity.
Qed.

Lemma asks_requests c es : exists q, requests c es q /\
  asks c (s_init c) es = map (fun x => (fst x, Some (snd x))) q.
Proof.
  induction es as [|e es IH] using rev_ind.
  - exists []. split; [constructor|reflexivity].
  - destruct IH as (q & Hq & E).
    destruct (run c (s_init c) es) as [st tr] eqn:Er.
    destruct (registered_reach c es st tr Er) as [Hm _].
    rewrite asks_app, E, Er. cbn [fst asks]. rewrite app_nil_r.
    assert (Hoth : (forall s v d, e = EvVisit s v -> wanted (registered tr) v d -> work_cap <= nlen (s_work st)) ->
              requests c (es ++ [e]) q).
    { intros H. apply rq_other; [exact Hq|]. rewrite Er. exact H. }
    destruct e as [s v|s d|s r|h|h| | |b| |n| |];
      try (exists q; split; [apply Hoth; intros; discriminate|cbn; rewrite app_nil_r; reflexivity]).
    cbn [ask1]. rewrite Hm. destruct (visit_domain (registered tr) v) as [d|] eqn:Ev.
    + destruct (N.ltb_spec (nlen (s_work st)) work_cap) as [Hl|Hl].
      * exists (q ++ [(s, d)]). split; [|rewrite map_app; reflexivity].
        apply rq_visit; [exact Hq|rewrite Er; apply wanted_ok; exact Ev|rewrite Er; exact Hl].
      * exists q. split; [|rewrite app_nil_r; reflexivity]. apply Hoth. intros; exact Hl.
    + exists q. split; [|rewrite app_nil_r; reflexivity]. apply Hoth.
      intros s' v' d E'. injection E' as <- <-. intros W. apply wanted_ok in W. congruence.
Qed.

Lemma requests_in c es q s d : requests c es q -> In (s, d) q ->
  exists e1 v e2, es = e1 ++ EvVisit s v :: e2 /\ wanted (registered (snd (run c (s_init c) e1))) v d.
Proof.
  induction 1 as [|es l s0 v0 d0 H IH W R|es l e H IH N]; intros Hin.
  - destruct Hin.
  - apply in_app_iff in Hin as [Hin|[E|[]]].
    + destruct (IH Hin) as (e1 & v & e2 & -> & G). exists e1, v, (e2 ++ [EvVisit s0 v0]).
      split; [rewrite <- app_assoc; reflexivity|exact G].
    + injection E as -> ->. exists es, v0, []. split; [reflexivity|exact W].
  - destruct (IH Hin) as (e1 & v & e2 & -> & G). exists e1, v, (e2 ++ [e]).
    split; [rewrite <- app_assoc; reflexivity|exact G].
Qed.

(* the server's side of the wire *)
Lemma server_wire c es st tr : run c (s_init c) es = (st, tr) ->
  exists q, requests c es q /\
    written tr ++ s_wbuf st = wire (pushed c (s_init c) es) /\
    creates (pushed c (s_init c) es) ++ map fst (s_work st) = map (fun x => (fst x, Some (snd x))) q /\
    forall s, payload s (pushed c (s_init c) es) ++ payload s (s_out st) = visitor_bytes c s (s_init c) es.
Proof.
  intros H. destruct (pushed_facts c es (s_init c) (Forall_nil _)) as (A & B & C).
  destruct (asks_requests c es) as (q & Hq & E). rewrite H in *. cbn [fst snd] in *.
  exists q. split; [exact Hq|]. split; [exact A|]. split; [|exact C].
  unfold works in B at 1. rewrite B. cbn [works s_init s_work map app]. exact E.
Qed.

Lemma last_maps_app a b acc : last_maps acc (a ++ b) = last_maps (last_maps acc a) b.
Proof. revert acc; induction a as [|f a IH]; intros acc; [reflexivity|]. destruct f; cbn [app last_maps]; apply IH. Qed.

Definition undecoded (e : eff) : Prop := match e with ODecoded (FMapping _ _) | OMaps _ => False | _ => True end.
Definition regs (o : list eff) (acc : list mapping) : list mapping :=
  fold_left (fun acc e => match e with OMaps ms => ms | _ => acc end) o acc.
Lemma undecoded_ok o acc : Forall undecoded o -> regs o acc = last_maps acc (decoded o).
Proof.
  intros H. revert acc. induction H as [|e o He _ IH]; intros acc; [reflexivity|].
  destruct e as [f| | | | | | | | | | |]; cbn in *; try apply IH; try contradiction.
  destruct f; cbn; try apply IH. contradiction.
Qed.
Lemma say_bye_und m : forall st, Forall undecoded (snd (say_bye m st)).
Proof.
  induction m as [|[s h] m IH]; intros st; [constructor|].
  cbn [say_bye]. destruct (gone h st || negb (nlen (s_box st h) <? handler_cap)); [apply IH|].
  specialize (IH (set_box h (s_box st h ++ [FClose s []]) st)).
  destruct (say_bye m _) as [st' es]. cbn [fst snd] in *. constructor; [exact I|exact IH].
Qed.
Lemma closed_und st : Forall undecoded (snd (tunnel_closed st)).
Proof.
  unfold tunnel_closed. pose proof (say_bye_und (s_map st) st) as H.
  destruct (say_bye (s_map st) st) as [st' es]. cbn [snd] in *. apply Forall_app. split; [exact H|repeat constructor].
Qed.
Lemma deliver_und h f st : Forall undecoded (snd (deliver h f st)).
Proof. unfold deliver. destruct (gone h st); [repeat constructor|].
       destruct (nlen (s_box st h) <? handler_cap); repeat constructor. Qed.

Lemma regs_step c st e acc : regs (snd (step c st e)) acc = last_maps acc (decoded (snd (step c st e))).
Proof.
  assert (U : forall o, Forall undecoded o -> regs o acc = last_maps acc (decoded o)) by (intros; apply undecoded_ok; assumption).
  destruct e as [s v|s d|s r|h|h| | |b| |n| |]; cbn [step].
  - apply U. destruct (visit_domain (s_maps st) v); [|constructor]. destruct (nlen (s_work st) <? work_cap); constructor.
  - apply U. destruct (is_open s st && (nlen (s_out st) <? out_cap)); constructor.
  - apply U. destruct (nlen (s_out st) <? out_cap); constructor.
  - apply U. destruct (s_box st h); [constructor|]. destruct (gone h st); repeat constructor.
  - reflexivity.
  - apply U. destruct (s_phase st); try constructor. destruct (s_work st) as [|[[s0 d0] h0] w]; repeat constructor.
  - apply U. destruct (s_phase st); try constructor. destruct (s_out st); constructor.
  - destruct (s_phase st); try reflexivity. destruct b; [|reflexivity]. apply U, closed_und.
  - destruct (s_phase st); try reflexivity. apply U, closed_und.
  - destruct (s_phase st); try reflexivity. destruct (s_wbuf st) as [|x w]; [reflexivity|].
    cbn [s_wbuf set_wbuf]. destruct (skipn _ (x :: w)), (s_shut st); reflexivity.
  - destruct (s_phase st); try reflexivity. destruct (s_wbuf st) as [|x w]; reflexivity.
  - destruct (s_phase st); try reflexivity.
    + destruct (decode_frame (s_rbuf st)) as [|f rest|e rest|]; try reflexivity.
      unfold handle. destruct f as [s d|s r|s d|s ms|u p]; cbn [s_verify set_rbuf];
        destruct (s_verify st); cbn [negb andb]; try reflexivity;
        try (cbn [s_map set_rbuf]; destruct (lookup N.eqb s (s_map st)) as [h|]; [|reflexivity];
             match goal with |- context [deliver h ?g ?z] => pose proof (deliver_und h g z) as Hd; destruct (deliver h g z) end;
             cbn [snd] in *; apply U; constructor; [exact I|exact Hd]).
      destruct (check_succ c u p); reflexivity.
    + apply U, deliver_und.
Qed.

Lemma registered_decoded c es st tr : run c (s_init c) es = (st, tr) -> registered tr = last_maps [] (decoded tr).
Proof.
  apply (run_reach c (fun st tr => registered tr = last_maps [] (decoded tr))); [reflexivity|].
  intros st0 tr0 e H. rewrite registered_app, decoded_app, last_maps_app, <- H. apply regs_step.
Qed.
