(* C85-C91: the tunnel end to end. *)
From Coq Require Import String.
From Verif Require Import Base Text ProtModel ProtSpec CsModel CsSpec CcModel CcSpec
  TunSpec TunServer TunClient TunProofs TunMore TunFlow.
Open Scope N_scope.

(* C85: everything the server puts on the tunnel is a sequence of frames; the
   create frames in it, followed by those still queued, are exactly the requests
   of visitors, each once, in order, with the name the mappings in force at the
   time of the visit give; and the data of each stream is exactly what visitors
   sent on it, in order. *)
Theorem C85_requests : forall c es st tr, run c (s_init c) es = (st, tr) ->
  exists l q, requests c es q /\ written tr ++ s_wbuf st = wire l /\
    creates l ++ map fst (s_work st) = map (fun x => (fst x, Some (snd x))) q /\
    forall s, payload s l ++ payload s (s_out st) = visitor_bytes c s (s_init c) es.
Proof.
  intros c es st tr H. destruct (server_wire c es st tr H) as (q & A & B & C & D).
  exists (pushed c (s_init c) es), q. repeat split; assumption.
Qed.
(* The mappings in force are those of the last registration received. *)
Theorem C85_last_registration : forall c es st tr, run c (s_init c) es = (st, tr) ->
  forall a s ms b, decoded tr = a ++ FMapping s ms :: b ->
  (forall s' ms', ~ In (FMapping s' ms') b) -> registered tr = ms.
Proof.
  intros c es st tr H a s ms b E Hb. rewrite (registered_decoded c es st tr H), E.
  clear -Hb. rewrite last_maps_app. cbn [last_maps fold_left].
  unfold last_maps. cbn [fold_left].
  generalize ms as acc. induction b as [|f b IH]; intros acc; [reflexivity|]. cbn [fold_left].
  destruct f; try (apply IH; intros s' ms' Hi; exact (Hb s' ms' (or_intror Hi))).
  exfalso. exact (Hb _ _ (or_introl eq_refl)).
Qed.
Print Assumptions C85_requests.
Print Assumptions C85_last_registration.

Definition web : mapping := Mapping (txt "web") (txt "http") (Some 8080) (txt "w.com") [].
Definition db : mapping := Mapping (txt "db") (txt "tcp") (Some 5432) (txt "d.com") [].
Definition ex_c : creds := Creds (Some (txt "me")) (Some (txt "pw")).
Definition ex_ms : list mapping := [web; db].

(* A whole session: login, one HTTP visitor, one answer. *)
Definition up1 : bytes := wire (greeting ex_c ex_ms).
Definition down1 : bytes := wire [FCreate 1 (Some (txt "w.com")); FData 1 [72; 105]].
Definition up2 : bytes := wire [FData 1 [111; 107]].
Definition ex_es : list ev :=
  [EvRead up1; EvDecode; EvDecode; EvDecode; EvVisit 1 (VHttp (txt "w.com")); EvVisit 3 (VHttp (txt "x.com"));
   EvWork; EvDecode; EvData 1 [72; 105]; EvOut; EvDecode; EvWrite 1000; EvDecode;
   EvRead up2; EvDecode; EvDecode; EvConsume 0].
Definition ex_kes : list kev :=
  [KWrite 1000; KStep; KRead down1; KStep; KStep; KStep; KConsume 0; KData 1 [111; 107]; KOut; KStep; KWrite 1000; KStep].


Example C85_demo : let '(st, tr) := run ex_c (s_init ex_c) ex_es in
  written tr ++ s_wbuf st = down1 /\ requests ex_c ex_es [(1, txt "w.com")] /\
  registered tr = map public_mapping ex_ms /\ payload 1 (got 0 tr) = [111; 107].
Proof.
  vm_compute run. cbv iota beta. split; [vm_compute; reflexivity|].
  split; [|split; vm_compute; reflexivity].
  assert (H0 : requests ex_c [EvRead up1; EvDecode; EvDecode; EvDecode] []).
  { change [EvRead up1; EvDecode; EvDecode; EvDecode] with
      (((([] ++ [EvRead up1]) ++ [EvDecode]) ++ [EvDecode]) ++ [EvDecode]).
    repeat (apply rq_other; [|discriminate]). apply rq_nil. }
  apply (rq_visit ex_c _ _ 1 (VHttp (txt "w.com")) (txt "w.com")) in H0.
  - apply (rq_other ex_c _ _ (EvVisit 3 (VHttp (txt "x.com")))) in H0.
    + assert (G : forall l es, Forall (fun e => forall s v, e <> EvVisit s v) l -> requests ex_c es [(1, txt "w.com")] ->
        requests ex_c (es ++ l) [(1, txt "w.com")]).
      { induction l as [|e l IH]; intros es Hl H; [rewrite app_nil_r; exact H|].
        inversion_clear Hl. replace (es ++ e :: l) with ((es ++ [e]) ++ l) by (rewrite <- app_assoc; reflexivity).
        apply IH; [assumption|]. apply rq_other; [exact H|]. intros s v d E. exfalso. exact (H1 s v E). }
      cbn [app] in H0. eapply (G _ _) in H0.
      * cbn [app] in H0. exact H0.
      * repeat (constructor; [discriminate|]). constructor.
    + intros s v d E W. injection E as <- <-. exfalso. cbn [wanted] in W.
      destruct W as (_ & m & Hin & E).
      assert (R : registered (snd (run ex_c (s_init ex_c)
         ([EvRead up1; EvDecode; EvDecode; EvDecode] ++ [EvVisit 1 (VHttp (txt "w.com"))]))) = map public_mapping ex_ms)
        by (vm_compute; reflexivity).
      rewrite R in Hin. destruct Hin as [<-|[<-|[]]]; vm_compute in E; discriminate.
  - split; [reflexivity|]. exists (public_mapping web). split; [vm_compute; left; reflexivity|reflexivity].
  - vm_compute. reflexivity.
Qed.

(* C86: a client whose credentials are those of the server says its credentials
   and its mappings first, is never refused, and is registered with exactly its
   mappings (without the private local addresses) once its greeting has been
   processed. *)
Theorem C86_greeting_first : forall c ms es st tr,
  (exists u p, c = Creds (Some u) (Some p) /\ short_string u /\ short_string p) \/ c = Creds None None ->
  fits (FMapping 0 ms) -> krun (k_init c ms) es = (st, tr) ->
  exists l, kwritten tr ++ k_wbuf st = wire (greeting c ms ++ l).
Proof. intros. exists (kpushed (k_init c ms) es). apply client_wire; assumption. Qed.
Theorem C86_never_refused : forall c ms kes es kst ktr st tr, tunnel c ms kes es kst ktr st tr ->
  forall f, ~ In (ORefused f) tr.
Proof.
  intros c ms kes es kst ktr st tr T f Hin. pose proof (honest_not_refused _ _ _ _ _ _ _ _ _ (tunnel_link _ _ _ _ _ _ _ _ T)) as E.
  assert (H : In f (CsProofs.refused tr)) by (apply in_flat_map; exists (ORefused f); split; [exact Hin|left; reflexivity]).
  rewrite E in H. exact H.
Qed.
Theorem C86_registered : forall c ms kes es kst ktr st tr, tunnel c ms kes es kst ktr st tr ->
  nlen (wire (greeting c ms)) <= nlen (bytes_read tr) -> s_phase st = PSelect ->
  registered tr = map public_mapping ms.
Proof. intros c ms kes es kst ktr st tr T. exact (honest_registered _ _ _ _ _ _ _ _ _ (tunnel_link _ _ _ _ _ _ _ _ T)). Qed.
Print Assumptions C86_greeting_first.
Print Assumptions C86_never_refused.
Print Assumptions C86_registered.

Ltac ok := first [exact I | reflexivity | (let H := fresh in intro H; discriminate H)
  | apply is_string_ascii; reflexivity | apply Forall_nil
  | exists 0, 0; repeat split; vm_compute; reflexivity
  | exists 0, 1; repeat split; vm_compute; reflexivity
  | exists 0, 3; repeat split; vm_compute; reflexivity].
Ltac all_ok := repeat first [ok | split].
Lemma web_fits : mapping_fits web /\ mapping_fits db.
Proof. unfold mapping_fits, short_string. all_ok. Qed.
Lemma ex_tunnel : let '(kst, ktr) := krun (k_init ex_c ex_ms) ex_kes in
  let '(st, tr) := run ex_c (s_init ex_c) ex_es in tunnel ex_c ex_ms ex_kes ex_es kst ktr st tr.
Proof.
  destruct (krun (k_init ex_c ex_ms) ex_kes) as [kst ktr] eqn:Hk.
  destruct (run ex_c (s_init ex_c) ex_es) as [st tr] eqn:Hs.
  assert (A : kwritten ktr = up1 ++ up2 /\ kbytes_read ktr = down1)
    by (change ktr with (snd (kst, ktr)); rewrite <- Hk; split; vm_compute; reflexivity).
  assert (B : written tr = down1 /\ bytes_read tr = up1 ++ up2)
    by (change tr with (snd (st, tr)); rewrite <- Hs; split; vm_compute; reflexivity).
  constructor.
  - exact Hk.
  - exact Hs.
  - rewrite (proj1 A), (proj2 B). apply prefix_refl.
  - rewrite (proj2 A), (proj1 B). apply prefix_refl.
  - left. exists (txt "me"), (txt "pw"). unfold short_string. all_ok.
  - split.
    + cbn [fits]. split; [ok|]. split; [reflexivity|]. split; [|reflexivity].
      apply Forall_cons; [apply web_fits|apply Forall_cons; [apply web_fits|apply Forall_nil]].
    + repeat (apply Forall_cons; [discriminate|]). apply Forall_nil.
  - unfold ex_kes. repeat (apply Forall_cons; [cbn [kev_ok fits]; unfold short_string; all_ok|]).
    apply Forall_nil.
  - unfold ex_es. repeat (apply Forall_cons;
      [cbn [ev_ok fits]; unfold short_string; all_ok|]).
    apply Forall_nil.
Qed.
Example C86_demo : nlen (wire (greeting ex_c ex_ms)) <= nlen (bytes_read (snd (run ex_c (s_init ex_c) ex_es))) /\
  s_phase (fst (run ex_c (s_init ex_c) ex_es)) = PSelect.
Proof. vm_compute. split; [discriminate|reflexivity]. Qed.

(* C87: the client contacts a local address only because a visitor asked for that
   stream at the server, and the address is that of the mapping that serves the
   name the visitor asked for. *)
Theorem C87_contact : forall c ms kes es kst ktr st tr, tunnel c ms kes es kst ktr st tr ->
  forall s h ad, In (QConnect s h ad) ktr ->
  exists v d m, In (EvVisit s v) es /\ wanted ms v d /\ serves ms d m /\ m_local m = Some ad.
Proof. intros c ms kes es kst ktr st tr T. exact (honest_contact _ _ _ _ _ _ _ _ _ (tunnel_link _ _ _ _ _ _ _ _ T)). Qed.
Print Assumptions C87_contact.
Example C87_demo : In (QConnect 1 0 8080) (snd (krun (k_init ex_c ex_ms) ex_kes)).
Proof. vm_compute. tauto. Qed.

(* C88 full statement: the address is that of the mapping the visitor means.  It
   holds when no two mappings share a name or a domain (a name equal to another
   mapping's domain counts) ... *)
Theorem C88_meant_partial : forall c ms kes es kst ktr st tr, tunnel c ms kes es kst ktr st tr ->
  unambiguous ms -> forall s h ad, In (QConnect s h ad) ktr ->
  exists v m, In (EvVisit s v) es /\ meant ms v m /\ m_local m = Some ad.
Proof.
  intros c ms kes es kst ktr st tr T U s h ad H.
  destruct (honest_contact _ _ _ _ _ _ _ _ _ (tunnel_link _ _ _ _ _ _ _ _ T) s h ad H) as (v & d & m & A & B & C & D).
  exists v, m. split; [exact A|]. split; [exact (unambiguous_meant ms v d m U B C)|exact D].
Qed.
(* ... and fails otherwise: a visitor of w.com is sent to the database because a
   later mapping is named w.com. *)
Definition trap : mapping := Mapping (txt "w.com") (txt "tcp") (Some 5432) (txt "d.com") [].
Definition bad_ms : list mapping := [web; trap].
Definition bad_es : list ev :=
  [EvRead (wire (greeting ex_c bad_ms)); EvDecode; EvDecode; EvDecode; EvVisit 1 (VHttp (txt "w.com"));
   EvWork; EvDecode; EvWrite 1000].
Definition bad_kes : list kev :=
  [KWrite 1000; KStep; KRead (wire [FCreate 1 (Some (txt "w.com"))]); KStep].
Theorem C88_meant_refuted : exists c ms kes es kst ktr st tr s h ad,
  tunnel c ms kes es kst ktr st tr /\ In (QConnect s h ad) ktr /\
  forall v m, In (EvVisit s v) es -> meant ms v m -> m_local m <> Some ad.
Proof.
  exists ex_c, bad_ms, bad_kes, bad_es.
  destruct (krun (k_init ex_c bad_ms) bad_kes) as [kst ktr] eqn:Hk.
  destruct (run ex_c (s_init ex_c) bad_es) as [st tr] eqn:Hs.
  exists kst, ktr, st, tr, 1, 0, 5432.
  assert (A : kwritten ktr = wire (greeting ex_c bad_ms) /\ kbytes_read ktr = wire [FCreate 1 (Some (txt "w.com"))] /\
     In (QConnect 1 0 5432) ktr)
    by (change ktr with (snd (kst, ktr)); rewrite <- Hk; repeat split; vm_compute; tauto).
  assert (B : written tr = wire [FCreate 1 (Some (txt "w.com"))] /\ bytes_read tr = wire (greeting ex_c bad_ms))
    by (change tr with (snd (st, tr)); rewrite <- Hs; split; vm_compute; reflexivity).
  destruct A as (A1 & A2 & A3). split; [|split; [exact A3|]].
  - constructor.
    + exact Hk.
    + exact Hs.
    + rewrite A1, (proj2 B). apply prefix_refl.
    + rewrite A2, (proj1 B). apply prefix_refl.
    + left. exists (txt "me"), (txt "pw"). unfold short_string. all_ok.
    + split.
      * cbn [fits]. split; [ok|]. split; [reflexivity|]. split; [|reflexivity].
        apply Forall_cons; [apply web_fits|apply Forall_cons; [|apply Forall_nil]].
        unfold mapping_fits, short_string. all_ok.
      * repeat (apply Forall_cons; [discriminate|]). apply Forall_nil.
    + unfold bad_kes. repeat (apply Forall_cons; [cbn [kev_ok fits]; unfold short_string; all_ok|]).
      apply Forall_nil.
    + unfold bad_es. repeat (apply Forall_cons;
        [cbn [ev_ok fits]; unfold short_string; all_ok|]).
      apply Forall_nil.
  - intros v m Hin Hm. cbn in Hin. repeat (destruct Hin as [Hin|Hin]; [try discriminate|]); try contradiction.
    injection Hin as <-. destruct Hm as [[<-|[<-|[]]] E]; vm_compute in E; try discriminate.
Qed.
Print Assumptions C88_meant_partial.
Print Assumptions C88_meant_refuted.
Example C88_demo : unambiguous ex_ms.
Proof.
  intros a m b m' c E. unfold ex_ms in E.
  destruct a as [|x [|y a]]; cbn in E; injection E; intros.
  - destruct b as [|z b]; cbn in H; injection H; intros; subst.
    + repeat split; discriminate.
    + destruct b; discriminate.
  - destruct b; discriminate.
  - destruct a; discriminate.
Qed.

(* C89: bytes.  Of each stream, the client has received an initial part of what
   visitors sent on it, and the server an initial part of what local services
   sent on it: nothing lost, duplicated, reordered or crossed over. *)
Theorem C89_down : forall c ms kes es kst ktr st tr, tunnel c ms kes es kst ktr st tr ->
  forall s, prefix (payload s (kdecoded ktr)) (visitor_bytes c s (s_init c) es).
Proof. intros c ms kes es kst ktr st tr T. exact (honest_down _ _ _ _ _ _ _ _ _ (tunnel_link _ _ _ _ _ _ _ _ T)). Qed.
Theorem C89_up : forall c ms kes es kst ktr st tr, tunnel c ms kes es kst ktr st tr ->
  forall s, prefix (payload s (decoded tr)) (service_bytes s (k_init c ms) kes).
Proof. intros c ms kes es kst ktr st tr T. exact (honest_up _ _ _ _ _ _ _ _ _ (tunnel_link _ _ _ _ _ _ _ _ T)). Qed.
(* The visitor itself gets an initial part of the bytes of the local service,
   provided none of them arrived before the visitor's stream was opened ... *)
Theorem C89_visitor_gets : forall c ms kes es kst ktr st tr, tunnel c ms kes es kst ktr st tr ->
  forall a s h b, tr = a ++ OBind s h :: b -> payload s (decoded a) = [] ->
  prefix (payload s (got h tr)) (service_bytes s (k_init c ms) kes).
Proof.
  intros c ms kes es kst ktr st tr T a s h b E Ha.
  eapply prefix_trans; [exact (visitor_flow c es st tr a b s h (t_server _ _ _ _ _ _ _ _ T) E)|].
  pose proof (honest_up _ _ _ _ _ _ _ _ _ (tunnel_link _ _ _ _ _ _ _ _ T) s) as P. rewrite E, decoded_app', payload_app', Ha in P. exact P.
Qed.
(* ... and the local service of the visitor's bytes, under the same condition and
   provided the client dropped none on a full queue (see C11). *)
Theorem C89_service_gets_partial : forall c ms kes es kst ktr st tr, tunnel c ms kes es kst ktr st tr ->
  forall a s h b, ktr = a ++ QBind s h :: b -> payload s (kdecoded a) = [] ->
  (forall f, ~ In (QLost h f) ktr) ->
  prefix (payload s (kgot h ktr)) (visitor_bytes c s (s_init c) es).
Proof.
  intros c ms kes es kst ktr st tr T a s h b E Ha Hl.
  eapply prefix_trans; [exact (service_flow c ms kes kst ktr a b s h (t_client _ _ _ _ _ _ _ _ T) E Hl)|].
  pose proof (honest_down _ _ _ _ _ _ _ _ _ (tunnel_link _ _ _ _ _ _ _ _ T) s) as P. rewrite E in P. unfold kdecoded in P at 1.
  rewrite flat_map_app, payload_app' in P. fold (kdecoded a) in P. rewrite Ha in P. exact P.
Qed.
Print Assumptions C89_down.
Print Assumptions C89_up.
Print Assumptions C89_visitor_gets.
Print Assumptions C89_service_gets_partial.
Example C89_demo :
  let '(kst, ktr) := krun (k_init ex_c ex_ms) ex_kes in
  let '(st, tr) := run ex_c (s_init ex_c) ex_es in
  payload 1 (kgot 0 ktr) = [72; 105] /\ payload 1 (kdecoded ktr) = [72; 105] /\ visitor_bytes ex_c 1 (s_init ex_c) ex_es = [72; 105] /\
  payload 1 (got 0 tr) = [111; 107] /\ service_bytes 1 (k_init ex_c ex_ms) ex_kes = [111; 107].
Proof. vm_compute. repeat split. Qed.

(* C90: when connecting to the local service fails, a close for that stream is
   put on the tunnel (or waits in the send queue). *)
Theorem C90_failed_connect : forall c ms e1 h e2 s a st tr,
  In (QConnect s h a) (snd (krun (k_init c ms) e1)) -> ~ In (KConnErr h) e1 ->
  nlen (k_out (fst (krun (k_init c ms) e1))) < out_cap ->
  krun (k_init c ms) (e1 ++ KConnErr h :: e2) = (st, tr) ->
  exists l, kwritten tr ++ k_wbuf st = fst (hello c ms) ++ wire l /\ In (FClose s []) (l ++ k_out st).
Proof. intros c ms e1 h e2 s a st tr A B C. exact (failed_connect c ms e1 h e2 s a A B C st tr). Qed.
Print Assumptions C90_failed_connect.
Example C90_demo : let e1 := [KRead (wire [FCreate 1 (Some (txt "w.com"))]); KStep; KStep] in
  In (QConnect 1 0 8080) (snd (krun (k_init ex_c ex_ms) e1)) /\ ~ In (KConnErr 0) e1 /\
  nlen (k_out (fst (krun (k_init ex_c ex_ms) e1))) < out_cap /\
  k_wbuf (fst (krun (k_init ex_c ex_ms) (e1 ++ KConnErr 0 :: [KOut]))) = fst (hello ex_c ex_ms) ++ wire [FClose 1 []].
Proof.
  cbv zeta. split; [vm_compute; tauto|]. split; [cbn; intros [H|[H|[H|[]]]]; discriminate|].
  split; vm_compute; reflexivity.
Qed.

(* C91: a client given only one of user name and password never logs in at a
   server configured the same way, whatever happens: it never says either. *)
Definition half_set (c : creds) : Prop :=
  (c_user c <> None /\ c_pass c = None) \/ (c_user c = None /\ c_pass c <> None).
Theorem C91_half_credentials : forall c ms kes es kst ktr st tr,
  half_set c -> fits (FMapping 0 ms) -> Forall kev_ok kes ->
  krun (k_init c ms) kes = (kst, ktr) -> run c (s_init c) es = (st, tr) ->
  prefix (bytes_read tr) (kwritten ktr) ->
  (forall e, In e tr -> ~ service e) /\ registered tr = [].
Proof. exact half_never. Qed.
Print Assumptions C91_half_credentials.
Definition half_c : creds := Creds (Some (txt "me")) None.
Example C91_demo :
  let '(kst, ktr) := krun (k_init half_c ex_ms) [KWrite 1000] in
  let '(st, tr) := run half_c (s_init half_c) [EvRead (kwritten ktr); EvDecode; EvWrite 1000] in
  half_set half_c /\ bytes_read tr = kwritten ktr /\ s_phase st = PEnd FinRefused /\ written tr = wire [refuse_frame].
Proof. vm_compute. repeat split. left. split; [discriminate|reflexivity]. Qed.
