(* A tunnel that has come to rest. *)
From Coq Require Import String.
From Verif Require Import Base Text ProtModel ProtSpec ProtProofs ProtStream CsModel CsSpec CsProofs
  CsRoute CsOwn CcModel CcSpec CcProofs CcCreate TunSpec TunServer TunClient TunProofs TunMore TunFlow
  CcProps JoSpec JoProofs QtSpec.
Open Scope N_scope.

(* ---- contacts ------------------------------------------------------------------ *)
Definition answer (ms : list mapping) (x : N * option key) : list (N * contact) :=
  match choose ms (asked (snd x)) with
  | None => []
  | Some m => [(fst x, if is_proxy m then Served m
                       else match m_local m with Some a => Contacted a | None => Nowhere end)]
  end.
Lemma contacts_app a b : contacts (a ++ b) = contacts a ++ contacts b.
Proof. apply flat_map_app. Qed.
Lemma kdecoded_app2 a b : kdecoded (a ++ b) = kdecoded a ++ kdecoded b.
Proof. apply flat_map_app. Qed.

Lemma bye_contacts m : forall st, contacts (snd (ksay_bye m st)) = [] /\ kdecoded (snd (ksay_bye m st)) = [] /\
  k_maps (fst (ksay_bye m st)) = k_maps st.
Proof.
  induction m as [|[s h] m IH]; intros st; [repeat split|]. cbn [ksay_bye].
  destruct (kgone h st || _); [apply IH|].
  specialize (IH (kset_box h (k_box st h ++ [FClose s []]) st)). destruct (ksay_bye m _). exact IH.
Qed.
Lemma closed_contacts st : contacts (snd (ktunnel_closed st)) = [] /\ kdecoded (snd (ktunnel_closed st)) = [] /\
  k_maps (fst (ktunnel_closed st)) = k_maps st.
Proof.
  unfold ktunnel_closed. pose proof (bye_contacts (k_map st) st) as B. destruct (ksay_bye (k_map st) st).
  cbn [fst snd] in *. rewrite contacts_app, kdecoded_app2. destruct B as (-> & -> & B). repeat split. exact B.
Qed.
Lemma step_contacts st e :
  contacts (snd (kstep st e)) = flat_map (answer (k_maps st)) (creates (kdecoded (snd (kstep st e)))) /\
  k_maps (fst (kstep st e)) = k_maps st.
Proof.
  pose proof (closed_contacts st) as (Z1 & Z2 & Z3).
  assert (Z : contacts (snd (ktunnel_closed st)) = flat_map (answer (k_maps st)) (creates (kdecoded (snd (ktunnel_closed st)))) /\
    k_maps (fst (ktunnel_closed st)) = k_maps st) by (rewrite Z1, Z2; split; [reflexivity|exact Z3]).
  destruct e as [s|s d|s r|h|h|h| | |b| |n| |]; cbn [kstep].
  - destruct (_ <? _); split; reflexivity.
  - destruct (_ <? _); split; reflexivity.
  - destruct (_ <? _); split; reflexivity.
  - destruct (k_box st h); [split; reflexivity|]. destruct (kgone h st); split; reflexivity.
  - split; reflexivity.
  - destruct (lookup _ _ _); [|split; reflexivity]. destruct (_ <? _); split; reflexivity.
  - destruct (k_phase st); try (split; reflexivity). destruct (k_work st) as [|[[? ?] ?] ?]; split; reflexivity.
  - destruct (k_phase st); try (split; reflexivity). destruct (k_out st); split; reflexivity.
  - destruct (k_phase st); try (destruct b; split; reflexivity). destruct b; [exact Z|split; reflexivity].
  - destruct (k_phase st); try (split; reflexivity). exact Z.
  - destruct (k_phase st); try (split; reflexivity). destruct (k_wbuf st); split; reflexivity.
  - destruct (k_phase st); try (split; reflexivity). destruct (k_wbuf st); split; reflexivity.
  - destruct (k_phase st); try (split; reflexivity).
    + destruct (decode_frame (k_rbuf st)) as [|f rest|e rest|]; try (split; reflexivity).
      assert (T : forall h g, contacts (snd (ktry_send h g (kset_rbuf rest st))) = [] /\
         kdecoded (snd (ktry_send h g (kset_rbuf rest st))) = [] /\ k_maps (fst (ktry_send h g (kset_rbuf rest st))) = k_maps st).
      { intros h g. unfold ktry_send. destruct (kgone _ _ || _); repeat split. }
      destruct f as [s dom|s r|s d|s ms|u p]; cbn [khandle].
      * change (k_maps (kset_rbuf rest st)) with (k_maps st).
        change (match dom with Some d => d | None => [] end) with (asked dom).
        destruct (choose (k_maps st) (asked dom)) as [m|] eqn:Ec.
        -- destruct (is_proxy m) eqn:Ep; [|destruct (m_local m) eqn:El]; cbn [fst snd];
             (split; [|reflexivity]); cbn [contacts kdecoded creates flat_map app];
             unfold answer; cbn [fst snd]; rewrite Ec, Ep, ?El; reflexivity.
        -- destruct (_ <? out_cap); cbn [fst snd]; (split; [|reflexivity]); cbn [contacts kdecoded creates flat_map app];
             unfold answer; cbn [fst snd]; rewrite Ec; reflexivity.
      * destruct (s =? 0); [split; reflexivity|]. destruct (lookup _ _ _) as [h|]; [|split; reflexivity].
        destruct (T h (FClose s r)) as (T1 & T2 & T3). destruct (ktry_send _ _ _). cbn [fst snd] in *.
        cbn [contacts kdecoded flat_map app] in *. fold (contacts l) (kdecoded l) in *. rewrite T1, T2. split; [reflexivity|exact T3].
      * destruct (lookup _ _ _) as [h|]; [|split; reflexivity].
        destruct (T h (FData s d)) as (T1 & T2 & T3). destruct (ktry_send _ _ _). cbn [fst snd] in *.
        cbn [contacts kdecoded flat_map app] in *. fold (contacts l) (kdecoded l) in *. rewrite T1, T2. split; [reflexivity|exact T3].
      * split; reflexivity.
      * split; reflexivity.
    + destruct (_ <? _); split; reflexivity.
Qed.
Lemma run_contacts es : forall st,
  contacts (snd (krun st es)) = flat_map (answer (k_maps st)) (creates (kdecoded (snd (krun st es)))).
Proof.
  induction es as [|e es IH]; intros st; [reflexivity|]. rewrite krun_cons. cbn [snd].
  destruct (step_contacts st e) as [A B].
  rewrite contacts_app, kdecoded_app2, creates_app, flat_map_app, IH, A, B. reflexivity.
Qed.

Lemma creates_public fs : creates (map public fs) = creates fs.
Proof.
  induction fs as [|f fs IH]; [reflexivity|]. cbn [map]. change (public f :: map public fs) with ([public f] ++ map public fs).
  change (f :: fs) with ([f] ++ fs). rewrite !creates_app, IH. destruct f; reflexivity.
Qed.
Lemma creates_prefix a b : prefix a b -> prefix (creates a) (creates b).
Proof. intros [x ->]. rewrite creates_app. apply prefix_app. Qed.
Lemma prefix_map_back {A B} (f : A -> B) a (b : list A) : prefix a (map f b) -> exists b', a = map f b' /\ prefix b' b.
Proof.
  intros [m E]. apply map_eq_app in E as (b1 & b2 & -> & E1 & _). exists b1.
  split; [symmetry; exact E1|apply prefix_app].
Qed.
Lemma all_complete fs : complete (nlen (wire fs)) fs = fs.
Proof.
  induction fs as [|f fs IH]; [reflexivity|]. cbn [complete]. rewrite wire_cons, nlen_app.
  replace (nlen (fst (encode f)) <=? nlen (fst (encode f)) + nlen (wire fs)) with true by (symmetry; apply N.leb_le; lia).
  rewrite N.add_comm, N.add_sub, IH. reflexivity.
Qed.
Lemma hit_chosen ms d m : In m ms -> hits d m -> exists m', choose ms d = Some m'.
Proof.
  intros Hi Hh. destruct (choose ms d) as [m'|] eqn:E; [exists m'; reflexivity|].
  apply choose_none in E. rewrite Forall_forall in E. destruct (E m Hi Hh).
Qed.
Lemma wanted_chosen ms v d : wanted ms v d -> exists m, choose ms d = Some m.
Proof.
  destruct v as [host|mode]; cbn [wanted].
  - intros (-> & m & Hi & E). apply (hit_chosen ms host m Hi). left. exact E.
  - intros (a & m & b & -> & _ & _ & ->). apply (hit_chosen _ _ m); [apply in_app_iff; right; left; reflexivity|right; reflexivity].
Qed.

Section Rest.
Context (c : creds) (ms : list mapping) (kes : list kev) (es : list ev)
  (kst0 : kst) (ktr : list keff) (st : sst) (tr : list eff)
  (T : tunnel c ms kes es kst0 ktr st tr).

Lemma chosen_deserves q s d : requests c es q -> In (s, d) q -> exists x, answer ms (s, Some d) = [x] /\ deserves ms (s, d) x.
Proof.
  intros Hq Hin. destruct (requests_in c es q s d Hq Hin) as (e1 & v & e2 & E & Wn).
  pose proof (tunnel_link _ _ _ _ _ _ _ _ T) as L.
  assert (W : wanted ms v d).
  { destruct (server_maps _ _ _ _ _ _ _ _ _ L e1 (EvVisit s v :: e2) E) as [H0|H0]; rewrite H0 in Wn.
    - exfalso. destruct v as [host|mode]; cbn [wanted] in Wn.
      + destruct Wn as (_ & m & [] & _).
      + destruct Wn as (a & m & b & Ea & _). destruct a; discriminate.
    - eapply wanted_public; eassumption. }
  destruct (wanted_chosen ms v d W) as (m & Ec). unfold answer. cbn [fst snd asked]. rewrite Ec.
  eexists. split; [reflexivity|]. split; [reflexivity|]. exists m. split; [exact (choose_some _ _ _ Ec)|].
  cbn [snd]. pose proof (proxy_spelled m) as P. change (CcProps.proxy_mode m) with (proxy_word m) in P. destruct (is_proxy m).
  - left. split; [apply P; reflexivity|reflexivity].
  - assert (Np : ~ proxy_word m) by (intros X; apply P in X; discriminate).
    right. destruct (m_local m) as [a|] eqn:El; [left|right].
    + split; [exact Np|]. exists a. split; reflexivity.
    + split; [exact Np|split; reflexivity].
Qed.
Lemma answers_all q q' : requests c es q -> prefix q' q ->
  Forall2 (deserves ms) q' (flat_map (answer ms) (map (fun x => (fst x, Some (snd x))) q')).
Proof.
  intros Hq [m ->].
  assert (G : forall l, incl l (q' ++ m) -> Forall2 (deserves ms) l (flat_map (answer ms) (map (fun x => (fst x, Some (snd x))) l))).
  { induction l as [|[s d] l IH]; intros Hl; [constructor|].
    destruct (chosen_deserves _ s d Hq (Hl _ (or_introl eq_refl))) as (x & Ex & Dx).
    cbn [map flat_map fst snd]. rewrite Ex. cbn [app]. constructor; [exact Dx|]. apply IH. intros y Hy. apply Hl. right. exact Hy. }
  apply G. apply incl_appl, incl_refl.
Qed.

Lemma each_contact : exists q q', requests c es q /\ prefix q' q /\ Forall2 (deserves ms) q' (contacts ktr).
Proof.
  pose proof (tunnel_link _ _ _ _ _ _ _ _ T) as L.
  destruct (server_wire c es st tr (t_server _ _ _ _ _ _ _ _ T)) as (q & Hq & _ & W & _).
  pose proof (creates_prefix _ _ (proj1 (client_sees _ _ _ _ _ _ _ _ _ L))) as P. rewrite creates_public in P.
  assert (P' : prefix (creates (kdecoded ktr)) (map (fun x => (fst x, Some (snd x))) q)).
  { eapply prefix_trans; [exact P|]. rewrite <- W. apply prefix_app. }
  destruct (prefix_map_back _ _ _ P') as (q' & E & Pq).
  exists q, q'. split; [exact Hq|]. split; [exact Pq|].
  pose proof (run_contacts kes (k_init c ms)) as C. rewrite (t_client _ _ _ _ _ _ _ _ T) in C. cbn [snd] in C.
  rewrite C, E. apply (answers_all q q' Hq Pq).
Qed.

(* at rest the client has seen all frames *)
Lemma rest_decoded : down_rest kst0 ktr st tr -> kdecoded ktr = map public (pushed c (s_init c) es).
Proof.
  intros [R1 R2 R3 R4 R5]. pose proof (tunnel_link _ _ _ _ _ _ _ _ T) as L.
  destruct (server_wire c es st tr (t_server _ _ _ _ _ _ _ _ T)) as (q & _ & W & _).
  rewrite R3, app_nil_r in W.
  destruct (ksource_from _ _ _ _ _ _ (l_start _ _ _ _ _ _ _ _ _ L) (t_client _ _ _ _ _ _ _ _ T)) as [_ S0].
  rewrite <- (S0 R5). rewrite (proj2 (client_sees _ _ _ _ _ _ _ _ _ L)), R4, W, all_complete. reflexivity.
Qed.
Lemma rest_contacts : down_rest kst0 ktr st tr -> exists q, requests c es q /\ Forall2 (deserves ms) q (contacts ktr).
Proof.
  intros R. pose proof (rest_decoded R) as D. destruct R as [R1 _ _ _ _].
  destruct (server_wire c es st tr (t_server _ _ _ _ _ _ _ _ T)) as (q & Hq & _ & W & _).
  rewrite R1 in W. cbn [map] in W. rewrite app_nil_r in W. exists q. split; [exact Hq|].
  pose proof (run_contacts kes (k_init c ms)) as C. rewrite (t_client _ _ _ _ _ _ _ _ T) in C. cbn [snd] in C.
  rewrite C, D, creates_public, W. apply (answers_all q q Hq). exists []. symmetry. apply app_nil_r.
Qed.
Lemma rest_payload s : down_rest kst0 ktr st tr -> payload s (kdecoded ktr) = visitor_bytes c s (s_init c) es.
Proof.
  intros R. rewrite (rest_decoded R), payload_public. destruct R as [_ R2 _ _ _].
  destruct (server_wire c es st tr (t_server _ _ _ _ _ _ _ _ T)) as (q & _ & _ & _ & W).
  rewrite <- W, R2. cbn [payload flat_map]. rewrite app_nil_r. reflexivity.
Qed.
Lemma rest_up s : up_rest kst0 ktr st tr -> payload s (decoded tr) = service_bytes s (k_init c ms) kes.
Proof.
  intros [R1 R2 R3 R4]. pose proof (tunnel_link _ _ _ _ _ _ _ _ T) as L.
  pose proof (t_server _ _ _ _ _ _ _ _ T) as R.
  destruct (source c es st tr R) as [_ S0].
  specialize (S0 R4 (shut_reach c es st tr R (honest_not_refused _ _ _ _ _ _ _ _ _ L))).
  destruct (server_sees _ _ _ _ _ _ _ _ _ L es [] (eq_sym (app_nil_r es))) as [F _].
  rewrite R in F. cbn [snd] in F. rewrite <- S0, F, payload_public, R3.
  pose proof (client_wire_from c ms _ kes kst0 ktr (starts_init c ms) (t_creds _ _ _ _ _ _ _ _ T)
    (proj1 (t_maps _ _ _ _ _ _ _ _ T)) (t_client _ _ _ _ _ _ _ _ T)) as W.
  rewrite R2, app_nil_r in W. rewrite W, all_complete, payload_app.
  assert (G : payload s (greeting c ms) = []).
  { unfold greeting. destruct (t_creds _ _ _ _ _ _ _ _ T) as [(u & p & -> & _)| ->]; destruct ms; reflexivity. }
  rewrite G. cbn [app]. pose proof (kpayload kes (k_init c ms) (stuck_close_init c ms) s) as K.
  rewrite (t_client _ _ _ _ _ _ _ _ T) in K. cbn [fst] in K. rewrite R1 in K. cbn [payload flat_map] in K. rewrite app_nil_r in K.
  exact K.
Qed.
End Rest.

(* ---- the frames of one stream --------------------------------------------------- *)
Lemma route_all s h : forall tr b, b s = Some h -> (forall h', ~ In (OBind s h') tr) -> ~ In h (map snd (binds tr)) ->
  payload s (tos h (route b tr)) = payload s (decoded tr).
Proof.
  induction tr as [|e tr IH]; intros b Hb Hs Hn; [reflexivity|].
  assert (Hs' : forall h', ~ In (OBind s h') tr) by (intros h' Hi; apply (Hs h'); right; exact Hi).
  destruct e as [f| |s0 h0| | | | | | | | |]; cbn [route decoded flat_map app binds] in *; try (apply IH; assumption).
  - fold (decoded tr). specialize (IH b Hb Hs' Hn).
    destruct f as [x d|x r|x d|x ms|u p]; cbn [payload flat_map app]; fold (payload s (decoded tr)); try exact IH.
    + destruct (b x) as [k|]; [|exact IH]. cbn [tos flat_map fst snd]. fold (tos h (route b tr)).
      destruct (k =? h); exact IH.
    + destruct (N.eqb_spec x s) as [->|Hx].
      * rewrite Hb. cbn [tos flat_map fst snd]. rewrite N.eqb_refl. fold (tos h (route b tr)).
        cbn [app payload flat_map]. rewrite N.eqb_refl. fold (payload s (tos h (route b tr))). rewrite IH. reflexivity.
      * cbn [app]. destruct (b x) as [k|]; [|exact IH]. cbn [tos flat_map fst snd]. fold (tos h (route b tr)).
        destruct (k =? h); [|exact IH]. cbn [app payload flat_map].
        destruct (N.eqb_spec x s); [contradiction|exact IH].
  - cbn [map snd] in Hn. fold (binds tr) in Hn. fold (decoded tr). apply IH; [|exact Hs'|intros Hi; apply Hn; right; exact Hi].
    unfold rebind. destruct (N.eqb_spec s s0) as [->|]; [|exact Hb]. destruct (Hs h0 (or_introl eq_refl)).
Qed.
Lemma kroute_all s h : forall tr b, b s = Some h -> (forall h', ~ In (QBind s h') tr) -> ~ In h (map snd (kbinds tr)) ->
  payload s (tos h (kroute b tr)) = payload s (kdecoded tr).
Proof.
  induction tr as [|e tr IH]; intros b Hb Hs Hn; [reflexivity|].
  assert (Hs' : forall h', ~ In (QBind s h') tr) by (intros h' Hi; apply (Hs h'); right; exact Hi).
  destruct e as [f|s0 h0| | | | | | | | | | |]; cbn [kroute kdecoded flat_map app kbinds] in *; try (apply IH; assumption).
  - fold (kdecoded tr). specialize (IH b Hb Hs' Hn).
    destruct f as [x d|x r|x d|x ms|u p]; cbn [payload flat_map app]; fold (payload s (kdecoded tr)); try exact IH.
    + destruct (x =? 0); [exact IH|]. destruct (b x) as [k|]; [|exact IH]. cbn [tos flat_map fst snd]. fold (tos h (kroute b tr)).
      destruct (k =? h); exact IH.
    + destruct (N.eqb_spec x s) as [->|Hx].
      * rewrite Hb. cbn [tos flat_map fst snd]. rewrite N.eqb_refl. fold (tos h (kroute b tr)).
        cbn [app payload flat_map]. rewrite N.eqb_refl. fold (payload s (tos h (kroute b tr))). rewrite IH. reflexivity.
      * cbn [app]. destruct (b x) as [k|]; [|exact IH]. cbn [tos flat_map fst snd]. fold (tos h (kroute b tr)).
        destruct (k =? h); [|exact IH]. cbn [app payload flat_map].
        destruct (N.eqb_spec x s); [contradiction|exact IH].
  - cbn [map snd] in Hn. fold (kbinds tr) in Hn. fold (kdecoded tr). apply IH; [|exact Hs'|intros Hi; apply Hn; right; exact Hi].
    unfold rebind. destruct (N.eqb_spec s s0) as [->|]; [|exact Hb]. destruct (Hs h0 (or_introl eq_refl)).
Qed.

Lemma visitor_all c es st tr a b s h :
  run c (s_init c) es = (st, tr) -> tr = a ++ OBind s h :: b -> (forall h', ~ In (OBind s h') b) ->
  s_phase st = PSelect -> gone h st = false -> s_box st h = [] ->
  payload s (got h tr) = payload s (decoded b).
Proof.
  intros Hrun E Hb Hp Hg Hx. pose proof (own_reach _ _ _ _ Hrun) as (Hn & _).
  apply NoDup_app_remove_r in Hn. rewrite E in Hn. rewrite binds_app, map_app in Hn.
  change (OBind s h :: b) with ([OBind s h] ++ b) in Hn. rewrite binds_app in Hn. cbn [binds flat_map app map snd] in Hn.
  fold (binds b) in Hn. pose proof (NoDup_remove_2 _ _ _ Hn) as Hno.
  destruct (flow_reach c h es st tr Hrun) as (B & _ & P). specialize (P Hg).
  pose proof (fifo c es st tr Hrun h) as F. rewrite Hx, app_nil_r in F. rewrite F, (given_puts s h tr B), P.
  pose proof (dispatch c es st tr Hrun) as D. change (fun _ : N => None) with none in D.
  unfold pending in D. rewrite Hp, app_nil_r in D. rewrite D.
  rewrite E, route_app, tos_app.
  assert (tos h (route none a) = []) as ->.
  { apply tos_none. intros f Hf. apply route_bound in Hf as [Hf|Hf]; [discriminate|].
    apply Hno, in_app_iff. left. apply in_map_iff. exists (frame_sock f, h). split; [reflexivity|exact Hf]. }
  cbn [app route]. apply route_all; [|exact Hb|].
  - unfold rebind. rewrite N.eqb_refl. reflexivity.
  - intros Hi. apply Hno, in_app_iff. right. exact Hi.
Qed.
Lemma service_all c ms es st tr a b s h :
  krun (k_init c ms) es = (st, tr) -> tr = a ++ QBind s h :: b -> (forall h', ~ In (QBind s h') b) ->
  (forall f, ~ In (QLost h f) tr) -> k_box st h = [] ->
  payload s (kgot h tr) = payload s (kdecoded b).
Proof.
  intros Hrun E Hb Hl Hx. pose proof (kinv_reach _ _ _ _ _ Hrun) as (T & _ & F & Hn & _).
  apply NoDup_app_remove_r in Hn. rewrite E in Hn. rewrite kbinds_app, map_app in Hn.
  change (QBind s h :: b) with ([QBind s h] ++ b) in Hn. rewrite kbinds_app in Hn. cbn [kbinds flat_map app map snd] in Hn.
  fold (kbinds b) in Hn. pose proof (NoDup_remove_2 _ _ _ Hn) as Hno.
  specialize (F h). rewrite Hx, app_nil_r in F. rewrite F.
  rewrite (kgiven_tried s h tr (krun_calm _ _ _ _ _ Hrun) Hl), T.
  rewrite E, kroute_app, tos_app.
  assert (tos h (kroute none a) = []) as ->.
  { apply tos_none. intros f Hf. apply kroute_bound in Hf as [Hf|Hf]; [discriminate|].
    apply Hno, in_app_iff. left. apply in_map_iff. exists (frame_sock f, h). split; [reflexivity|exact Hf]. }
  cbn [app kroute]. apply kroute_all; [|exact Hb|].
  - unfold rebind. rewrite N.eqb_refl. reflexivity.
  - intros Hi. apply Hno, in_app_iff. right. exact Hi.
Qed.
Lemma stays_there c h es : forall st tr, run c (s_init c) es = (st, tr) -> ~ In (EvGone h) es -> gone h st = false.
Proof.
  induction es as [|e es IH] using rev_ind; intros st tr Hrun Hn; [injection Hrun as <- _; reflexivity|].
  rewrite run_app in Hrun. destruct (run c (s_init c) es) as [st1 tr1]. cbn [fst snd] in Hrun.
  rewrite run_cons in Hrun. cbn [run fst snd] in Hrun. injection Hrun as <- _.
  assert (G : gone h st1 = false) by (apply (IH st1 tr1 eq_refl); intros Hi; apply Hn, in_app_iff; left; exact Hi).
  unfold gone in *. rewrite step_gone. destruct e as [| | | |h0| | | | | | |]; try exact G.
  cbn [existsb]. rewrite G, orb_false_r. apply N.eqb_neq. intros ->. apply Hn, in_app_iff. right. left. reflexivity.
Qed.
