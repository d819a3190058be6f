(* C92-C95: the tunnel client across reconnections, and how a tunnel ends. *)
From Coq Require Import String.
From Verif Require Import Base Text ProtModel ProtSpec ProtProofs CsModel CsSpec CcModel CcSpec
  TunSpec TunServer TunClient TunProofs TunMore TunFlow TunProps ReModel ReSpec ReProofs.
Open Scope N_scope.

(* C92: a connection made after any number of earlier ones is as good as the first:
   the client says its credentials and all its mappings first, is not refused, is
   registered again, and contacts local services only for visitors of this
   connection. *)
(* C92: a connection that has ended is followed by another one, unless a crash has ended it
   (C95) *)
Theorem C92_again : forall c ms ess k0 es st tr r, sessions c ms ess k0 -> krun k0 es = (st, tr) ->
  k_phase st = KEnd r -> (r <> KPanic <-> exists k1, sessions c ms (ess ++ [es]) k1).
Proof.
  intros c ms ess k0 es st tr r Hs H P. split.
  - intro NP. eexists. eapply se_again; [exact Hs|exact H|]. unfold reconnects. rewrite P. destruct r; [exact Logic.I|exact Logic.I|now apply NP].
  - intros (k1 & Q) ->. inversion Q as [E|ess' k0' es' st' tr' Hs' H' R E]; [destruct ess; discriminate|].
    apply app_inj_tail in E. destruct E as [-> ->]. assert (k0' = k0) by exact (sessions_fun _ _ _ _ _ Hs' Hs). subst k0'. rewrite H in H'. injection H' as <- <-. unfold reconnects in R. rewrite P in R. exact R.
Qed.
Theorem C92_greeting_again : forall c ms ess k0 kes kst ktr, sessions c ms ess k0 ->
  (exists u p, c = Creds (Some u) (Some p) /\ short_string u /\ short_string p) \/ c = Creds None None ->
  fits (FMapping 0 ms) -> krun k0 kes = (kst, ktr) ->
  exists l, kwritten ktr ++ k_wbuf kst = wire (greeting c ms ++ l).
Proof.
  intros c ms ess k0 kes kst ktr Hs Hc Hf H. exists (kpushed k0 kes).
  apply client_wire_from; try assumption. exact (sessions_start _ _ _ _ Hs).
Qed.
Theorem C92_never_refused : forall c ms ess k0 kes es kst ktr st tr,
  retunnel c ms ess k0 kes es kst ktr st tr -> forall f, ~ In (ORefused f) tr.
Proof.
  intros c ms ess k0 kes es kst ktr st tr T f Hin.
  pose proof (honest_not_refused _ _ _ _ _ _ _ _ _ (retunnel_link _ _ _ _ _ _ _ _ _ _ T)) as E.
  assert (H : In f (CsProofs.refused tr)) by (apply in_flat_map; exists (ORefused f); split; [exact Hin|left; reflexivity]).
  rewrite E in H. exact H.
Qed.
Theorem C92_registered : forall c ms ess k0 kes es kst ktr st tr,
  retunnel c ms ess k0 kes es kst ktr st tr ->
  nlen (wire (greeting c ms)) <= nlen (bytes_read tr) -> s_phase st = PSelect ->
  registered tr = map public_mapping ms.
Proof.
  intros c ms ess k0 kes es kst ktr st tr T.
  exact (honest_registered _ _ _ _ _ _ _ _ _ (retunnel_link _ _ _ _ _ _ _ _ _ _ T)).
Qed.
Theorem C92_contact : forall c ms ess k0 kes es kst ktr st tr,
  retunnel c ms ess k0 kes es kst ktr st tr -> forall s h ad, In (QConnect s h ad) ktr ->
  exists v d m, In (EvVisit s v) es /\ wanted ms v d /\ serves ms d m /\ m_local m = Some ad.
Proof.
  intros c ms ess k0 kes es kst ktr st tr T.
  exact (honest_contact _ _ _ _ _ _ _ _ _ (retunnel_link _ _ _ _ _ _ _ _ _ _ T)).
Qed.
(* ... each over a local connection of its own: none that an earlier connection made
   is used again. *)
Theorem C92_own_connections : forall c ms ess k1 es1 st1 tr1 rest k2 es2 st2 tr2 s1 h1 a1 s2 h2 a2,
  sessions c ms ess k1 -> krun k1 es1 = (st1, tr1) ->
  sessions c ms (ess ++ es1 :: rest) k2 -> krun k2 es2 = (st2, tr2) ->
  In (QConnect s1 h1 a1) tr1 -> In (QConnect s2 h2 a2) tr2 -> h1 <> h2.
Proof.
  intros c ms ess k1 es1 st1 tr1 rest k2 es2 st2 tr2 s1 h1 a1 s2 h2 a2 H1 R1 H2 R2 I1 I2.
  pose proof (sessions_next _ _ _ _ _ _ _ _ _ H1 R1 H2) as L.
  pose proof (proj2 (krun_next es1 k1) s1 h1 a1) as A. rewrite R1 in A. specialize (A I1).
  pose proof (proj2 (krun_next es2 k2) s2 h2 a2) as B. rewrite R2 in B. specialize (B I2).
  cbn [fst] in *. lia.
Qed.
Print Assumptions C92_own_connections.
Print Assumptions C92_again.
Print Assumptions C92_greeting_again.
Print Assumptions C92_never_refused.
Print Assumptions C92_registered.
Print Assumptions C92_contact.

(* Two connections.  In the first a visitor on stream 1 asks, the service's answer
   is still queued when the connection breaks.  In the second a new visitor gets
   stream 1 of the new connection. *)
Definition secret : bytes := [115; 101; 99].
Definition s1_kes : list kev :=
  [KWrite 1000; KStep; KRead (wire [FCreate 1 (Some (txt "w.com"))]); KStep; KStep; KData 1 secret; KRead []].
Definition s2_k0 : kst := kagain ex_c ex_ms (fst (krun (k_init ex_c ex_ms) s1_kes)).
Definition s2_down : bytes := wire [FCreate 1 (Some (txt "d.com"))].
Definition s2_up : bytes := wire [FData 1 secret].
Definition s2_kes : list kev :=
  [KWrite 1000; KStep; KRead s2_down; KStep; KStep; KOut; KStep; KWrite 1000; KStep].
Definition s2_es : list ev :=
  [EvRead up1; EvDecode; EvDecode; EvDecode; EvVisit 1 (VHttp (txt "d.com")); EvWork; EvDecode; EvWrite 1000;
   EvDecode; EvRead s2_up; EvDecode; EvDecode; EvConsume 0].
Lemma s2_sessions : sessions ex_c ex_ms [s1_kes] s2_k0.
Proof.
  change [s1_kes] with ([] ++ [s1_kes]). unfold s2_k0.
  destruct (krun (k_init ex_c ex_ms) s1_kes) as [st tr] eqn:E. cbn [fst].
  apply (se_again _ _ _ (k_init ex_c ex_ms) _ _ tr); [apply se_first|exact E|].
  assert (P : k_phase (fst (st, tr)) = KEnd KClosed) by (rewrite <- E; vm_compute; reflexivity).
  unfold reconnects. cbn [fst] in P. rewrite P. exact I.
Qed.
Lemma s2_retunnel : let '(kst, ktr) := krun s2_k0 s2_kes in
  let '(st, tr) := run ex_c (s_init ex_c) s2_es in retunnel ex_c ex_ms [s1_kes] s2_k0 s2_kes s2_es kst ktr st tr.
Proof.
  destruct (krun s2_k0 s2_kes) as [kst ktr] eqn:Hk.
  destruct (run ex_c (s_init ex_c) s2_es) as [st tr] eqn:Hs.
  assert (A : kwritten ktr = up1 ++ s2_up /\ kbytes_read ktr = s2_down)
    by (change ktr with (snd (kst, ktr)); rewrite <- Hk; split; vm_compute; reflexivity).
  assert (B : written tr = s2_down /\ bytes_read tr = up1 ++ s2_up)
    by (change tr with (snd (st, tr)); rewrite <- Hs; split; vm_compute; reflexivity).
  constructor.
  - exact s2_sessions.
  - exact Hk.
  - exact Hs.
  - rewrite (proj1 A), (proj2 B). apply prefix_refl.
  - rewrite (proj2 A), (proj1 B). apply prefix_refl.
  - left. exists (txt "me"), (txt "pw"). unfold short_string. all_ok.
  - split.
    + cbn [fits]. split; [ok|]. split; [reflexivity|]. split; [|reflexivity].
      apply Forall_cons; [apply web_fits|apply Forall_cons; [apply web_fits|apply Forall_nil]].
    + repeat (apply Forall_cons; [discriminate|]). apply Forall_nil.
  - split; [apply Forall_cons; [unfold s1_kes|apply Forall_nil]|unfold s2_kes];
      repeat (apply Forall_cons; [cbn [kev_ok fits]; unfold short_string; all_ok|]); apply Forall_nil.
  - unfold s2_es. repeat (apply Forall_cons; [cbn [ev_ok fits]; unfold short_string; all_ok|]).
    apply Forall_nil.
Qed.
Example C92_own_demo : sessions ex_c ex_ms [] (k_init ex_c ex_ms) /\ sessions ex_c ex_ms ([] ++ s1_kes :: []) s2_k0 /\
  (exists h a, In (QConnect 1 h a) (snd (krun (k_init ex_c ex_ms) s1_kes))) /\
  (exists h a, In (QConnect 1 h a) (snd (krun s2_k0 s2_kes))).
Proof.
  split; [apply se_first|]. split; [exact s2_sessions|].
  split; do 2 eexists; vm_compute; tauto.
Qed.
Example C92_demo : let '(st, tr) := run ex_c (s_init ex_c) s2_es in
  nlen (wire (greeting ex_c ex_ms)) <= nlen (bytes_read tr) /\ s_phase st = PSelect /\
  In (QConnect 1 1 5432) (snd (krun s2_k0 s2_kes)).
Proof. vm_compute. repeat split; try (intro H; discriminate H). tauto. Qed.

(* C93, full statement: what a visitor receives is an initial part of what the local
   service sent for that visitor.  Over reconnections, the client sends every byte
   of a local service exactly once and in order (what is queued when a connection
   breaks is sent on the next one), so a visitor gets an initial part of what was
   still queued for its stream number from earlier connections, followed by what
   its service sent; and only the latter if nothing was queued ... *)
Theorem C93_sent_once : forall c ms ess k0 kes kst ktr, sessions c ms ess k0 ->
  (exists u p, c = Creds (Some u) (Some p) /\ short_string u /\ short_string p) \/ c = Creds None None ->
  fits (FMapping 0 ms) -> krun k0 kes = (kst, ktr) ->
  exists l, kwritten ktr ++ k_wbuf kst = wire (greeting c ms ++ l) /\
  forall s, payload s l ++ payload s (k_out kst) = payload s (k_out k0) ++ service_bytes s k0 kes.
Proof.
  intros c ms ess k0 kes kst ktr Hs Hc Hf H. exists (kpushed k0 kes). split.
  - apply client_wire_from; try assumption. exact (sessions_start _ _ _ _ Hs).
  - intros s. pose proof (kpayload kes k0 (sessions_stuck _ _ _ _ Hs) s) as K. rewrite H in K. exact K.
Qed.
Theorem C93_visitor_gets_partial : forall c ms ess k0 kes es kst ktr st tr,
  retunnel c ms ess k0 kes es kst ktr st tr ->
  forall a s h b, tr = a ++ OBind s h :: b -> payload s (decoded a) = [] ->
  prefix (payload s (got h tr)) (payload s (k_out k0) ++ service_bytes s k0 kes) /\
  (payload s (k_out k0) = [] -> prefix (payload s (got h tr)) (service_bytes s k0 kes)).
Proof.
  intros c ms ess k0 kes es kst ktr st tr T a s h b E Ha.
  assert (P : prefix (payload s (got h tr)) (payload s (k_out k0) ++ service_bytes s k0 kes)).
  { eapply prefix_trans; [exact (visitor_flow c es st tr a b s h (r_server _ _ _ _ _ _ _ _ _ _ T) E)|].
    pose proof (honest_up _ _ _ _ _ _ _ _ _ (retunnel_link _ _ _ _ _ _ _ _ _ _ T) s) as P.
    rewrite E, decoded_app', payload_app', Ha in P. exact P. }
  split; [exact P|]. intros E0. rewrite E0 in P. exact P.
Qed.
(* ... but what was queued does reach the new visitor: the local service has sent
   nothing for it, yet it receives the answer meant for the visitor of an earlier
   connection, who had asked for another site. *)
Theorem C93_crossed_refuted : exists c ms ess k0 kes es kst ktr st tr a s h b d,
  retunnel c ms ess k0 kes es kst ktr st tr /\
  tr = a ++ OBind s h :: b /\ payload s (decoded a) = [] /\ service_bytes s k0 kes = [] /\
  payload s (got h tr) = d /\ d <> [] /\
  (exists es1, ess = [es1] /\ service_bytes s (k_init c ms) es1 = d).
Proof.
  exists ex_c, ex_ms, [s1_kes], s2_k0, s2_kes, s2_es. pose proof s2_retunnel as T.
  destruct (krun s2_k0 s2_kes) as [kst ktr] eqn:Hk.
  destruct (run ex_c (s_init ex_c) s2_es) as [st tr] eqn:Hs.
  exists kst, ktr, st, tr.
  assert (X : exists a b, tr = a ++ OBind 1 0 :: b /\ payload 1 (decoded a) = [] /\ payload 1 (got 0 tr) = secret).
  { change tr with (snd (st, tr)). rewrite <- Hs.
    exists (firstn 4 (snd (run ex_c (s_init ex_c) s2_es))), (skipn 5 (snd (run ex_c (s_init ex_c) s2_es))).
    split; [|split]; vm_compute; reflexivity. }
  destruct X as (a & b & X1 & X2 & X3).
  exists a, 1, 0, b, secret. split; [exact T|]. split; [exact X1|]. split; [exact X2|].
  split; [vm_compute; reflexivity|]. split; [exact X3|]. split; [discriminate|].
  exists s1_kes. split; [reflexivity|vm_compute; reflexivity].
Qed.
Print Assumptions C93_sent_once.
Print Assumptions C93_visitor_gets_partial.
Print Assumptions C93_crossed_refuted.
Example C93_demo : payload 1 (k_out s2_k0) = secret /\
  (let '(st, tr) := run ex_c (s_init ex_c) ex_es in payload 1 (got 0 tr) = [111; 107]).
Proof. vm_compute. split; reflexivity. Qed.

(* C94: between a client and a server with the same configuration neither side
   ends a connection but because it was closed or failed underneath: no protocol
   error, no refusal, no crash, whatever visitors and services do. *)
Theorem C94_client_ends : forall c ms ess k0 kes es kst ktr st tr,
  retunnel c ms ess k0 kes es kst ktr st tr ->
  forall r, k_phase kst = KEnd r -> r = KClosed /\ (In (KRead []) kes \/ In KReadErr kes).
Proof.
  intros c ms ess k0 kes es kst ktr st tr T r H.
  apply (client_ends _ _ _ _ _ _ _ _ _ (retunnel_link _ _ _ _ _ _ _ _ _ _ T) kes [] (eq_sym (app_nil_r kes))).
  rewrite (r_client _ _ _ _ _ _ _ _ _ _ T). exact H.
Qed.
Theorem C94_server_ends : forall c ms ess k0 kes es kst ktr st tr,
  retunnel c ms ess k0 kes es kst ktr st tr -> ~ In EvWriteErr es ->
  forall r, s_phase st = PEnd r -> r = FinClosed /\ (In (EvRead []) es \/ In EvReadErr es).
Proof.
  intros c ms ess k0 kes es kst ktr st tr T Hw r H.
  apply (server_ends _ _ _ _ _ _ _ _ _ (retunnel_link _ _ _ _ _ _ _ _ _ _ T) es [] (eq_sym (app_nil_r es)) Hw).
  rewrite (r_server _ _ _ _ _ _ _ _ _ _ T). exact H.
Qed.
Print Assumptions C94_client_ends.
Print Assumptions C94_server_ends.
Example C94_demo : k_phase (fst (krun (k_init ex_c ex_ms) (ex_kes ++ [KRead []]))) = KEnd KClosed /\
  s_phase (fst (run ex_c (s_init ex_c) (ex_es ++ [EvRead []]))) = PEnd FinClosed.
Proof. vm_compute. split; reflexivity. Qed.

(* C95, full statement: nothing the server sends can stop the client for good.
   Only a token frame or a frame on which the decoder itself crashes (C04) does ... *)
Theorem C95_what_crashes_partial : forall c ms ess k0 kes kst ktr,
  sessions c ms ess k0 -> krun k0 kes = (kst, ktr) -> k_phase kst = KEnd KPanic ->
  (exists u p, In (FToken u p) (kdecoded ktr)) \/ decode_frame (k_rbuf kst) = DPanic.
Proof. intros c ms ess k0 kes kst ktr Hs H. exact (blame_reach c ms ess k0 kes kst ktr Hs H). Qed.
(* ... and a token frame does at any time: the client never writes or reads again
   and does not reconnect. *)
Theorem C95_token_kills_refuted : forall c ms ess k0 kes kst ktr u p,
  sessions c ms ess k0 -> krun k0 kes = (kst, ktr) -> k_phase kst = KSelect -> k_rbuf kst = [] ->
  fits (FToken u p) -> forall more st' tr',
  krun kst ([KRead (wire [FToken u p]); KStep] ++ more) = (st', tr') ->
  ~ reconnects st' /\ kwritten tr' = [] /\ kbytes_read tr' = wire [FToken u p].
Proof.
  intros c ms ess k0 kes kst ktr u p _ _ Hp Hr Hf more st' tr' H. cbn [app] in H.
  assert (Hne : wire [FToken u p] <> []).
  { pose proof (proj2 (roundtrip (FToken u p) [] Hf)) as R.
    intros E. cbn [wire flat_map] in E. rewrite !app_nil_r in *. rewrite E in R. vm_compute in R. discriminate. }
  assert (D : decode_frame (wire [FToken u p]) = DFrame (FToken u p) []).
  { cbn [wire flat_map]. exact (proj2 (roundtrip (FToken u p) [] Hf)). }
  revert H Hne D. generalize (wire [FToken u p]). intros w H Hne D.
  rewrite krun_cons in H. cbn [kstep] in H. rewrite Hp in H.
  destruct w as [|x w]; [contradiction|].
  cbn [fst snd] in H. rewrite krun_cons in H. cbn [kstep k_phase kset_phase kset_rbuf k_rbuf] in H.
  rewrite Hr in H. cbn [app] in H. rewrite D in H. cbn [khandle fst snd] in H.
  match type of H with context [krun ?s more] => set (s1 := s) in * end.
  assert (Hs1 : k_phase s1 = KEnd KPanic) by reflexivity.
  pose proof (panic_stays more s1 Hs1) as P. destruct (panic_quiet more s1 Hs1) as [W R].
  injection H as <- <-. split; [|split].
  - unfold reconnects. rewrite P. exact (fun x => x).
  - unfold kwritten in *. cbn [flat_map app]. exact W.
  - unfold kbytes_read in *. cbn [flat_map app]. rewrite R, app_nil_r. reflexivity.
Qed.
Print Assumptions C95_what_crashes_partial.
Print Assumptions C95_token_kills_refuted.
Example C95_demo : let '(kst, ktr) := krun (k_init ex_c ex_ms) ex_kes in
  k_phase kst = KSelect /\ k_rbuf kst = [] /\ fits (FToken (txt "a") (txt "b")).
Proof.
  vm_compute krun. cbv iota beta. repeat (split; [vm_compute; reflexivity|]).
  cbn [fits]. unfold short_string. all_ok.
Qed.
