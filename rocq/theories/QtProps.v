(* C189: when a tunnel comes to rest, everything has arrived. *)
From Coq Require Import String.
From Verif Require Import Base Text ProtModel ProtSpec CsModel CsSpec CcModel CcSpec
  TunSpec TunServer TunClient TunProofs TunMore TunFlow TunProps JoSpec JoProofs JoProps QtSpec QtProofs QtReach.
Open Scope N_scope.

(* At any time what the client contacted is what the first of the requests of visitors
   deserve, each once, in their order. *)
Theorem C189_each : forall c ms kes es kst ktr st tr, tunnel c ms kes es kst ktr st tr ->
  exists q q', requests c es q /\ prefix q' q /\ Forall2 (deserves ms) q' (contacts ktr).
Proof. intros c ms kes es kst ktr st tr T. exact (each_contact _ _ _ _ _ _ _ _ T). Qed.
(* When nothing is on its way down, no request of a visitor is left without its contact. *)
Theorem C189_connected : forall c ms kes es kst ktr st tr, tunnel c ms kes es kst ktr st tr ->
  down_rest kst ktr st tr -> exists q, requests c es q /\ Forall2 (deserves ms) q (contacts ktr).
Proof. intros c ms kes es kst ktr st tr T. exact (rest_contacts _ _ _ _ _ _ _ _ T). Qed.
(* ... and the client has seen all that visitors sent, on each stream. *)
Theorem C189_down : forall c ms kes es kst ktr st tr, tunnel c ms kes es kst ktr st tr ->
  down_rest kst ktr st tr -> forall s, payload s (kdecoded ktr) = visitor_bytes c s (s_init c) es.
Proof. intros c ms kes es kst ktr st tr T R s. exact (rest_payload _ _ _ _ _ _ _ _ T s R). Qed.
(* When nothing is on its way up, the server has seen all that local services sent. *)
Theorem C189_up : forall c ms kes es kst ktr st tr, tunnel c ms kes es kst ktr st tr ->
  up_rest kst ktr st tr -> forall s, payload s (decoded tr) = service_bytes s (k_init c ms) kes.
Proof. intros c ms kes es kst ktr st tr T R s. exact (rest_up _ _ _ _ _ _ _ _ T s R). Qed.

(* (A history has exactly one list of requests.) *)
Theorem C189_requests : forall c es, exists q, requests c es q /\ forall q', requests c es q' -> q' = q.
Proof.
  intros c es. destruct (asks_requests c es) as (q & Q & _). exists q. split; [exact Q|].
  intros q' Q'. exact (requests_one c es q' Q' q Q).
Qed.
(* The local service has then received exactly what its visitor sent, once it has taken
   what was put into its queue: under the conditions of C89, and while the stream number
   is not given to another. *)
Theorem C189_service : forall c ms w, whole c ms w ->
  down_rest (fst (krun (k_init c ms) (kevs w))) (kseen c ms w) (fst (run c (s_init c) (evs w))) (seen c w) ->
  forall a s h b, kseen c ms w = a ++ QBind s h :: b -> (forall h', ~ In (QBind s h') b) ->
  ~ In (KOpen s) (kevs w) -> creates_first c w -> once s w ->
  (forall f, ~ In (QLost h f) (kseen c ms w)) -> k_box (fst (krun (k_init c ms) (kevs w))) h = [] ->
  payload s (kgot h (kseen c ms w)) = visitor_bytes c s (s_init c) (evs w).
Proof.
  intros c ms w W R a s h b E Hb Hk Hf Ho Hl Hx. pose proof (whole_tunnel _ _ _ W) as T.
  rewrite (service_all c ms _ _ _ a b s h (t_client _ _ _ _ _ _ _ _ T) E Hb Hl Hx).
  rewrite <- (rest_payload _ _ _ _ _ _ _ _ T s R), E.
  rewrite kdecoded_app2, payload_app', (early_silent_client c ms w s a h b W E Hk Hf Ho). reflexivity.
Qed.
(* ... and the visitor exactly what its local service sent, while it is there to take it. *)
Theorem C189_visitor : forall c ms w, whole c ms w ->
  up_rest (fst (krun (k_init c ms) (kevs w))) (kseen c ms w) (fst (run c (s_init c) (evs w))) (seen c w) ->
  forall a s h b, seen c w = a ++ OBind s h :: b ->
  (forall h', ~ In (OBind s h') a) -> (forall h', ~ In (OBind s h') b) ->
  replies_only c ms s w -> ~ In (KOpen s) (kevs w) ->
  ~ In (EvGone h) (evs w) -> s_box (fst (run c (s_init c) (evs w))) h = [] ->
  payload s (got h (seen c w)) = service_bytes s (k_init c ms) (kevs w).
Proof.
  intros c ms w W R a s h b E Ha Hb Hr Hk Hg Hx. pose proof (whole_tunnel _ _ _ W) as T.
  pose proof (t_server _ _ _ _ _ _ _ _ T) as Hrun.
  rewrite (visitor_all c _ _ _ a b s h Hrun E Hb (ur_idle _ _ _ _ R) (stays_there c h _ _ _ Hrun Hg) Hx).
  rewrite <- (rest_up _ _ _ _ _ _ _ _ T s R), E.
  rewrite decoded_app', payload_app', (early_silent c ms w s a h b W E Ha Hr Hk). reflexivity.
Qed.
(* As long as nobody closes the connection, and whatever happened on it so far, the two
   ends can go on with what they have until nothing is on its way in either direction. *)
Theorem C189_comes_to_rest : forall c ms w, whole c ms w -> unbroken w ->
  exists w', Forall goes_on w' /\ whole c ms (w ++ w') /\ unbroken (w ++ w') /\
    down_rest (fst (krun (k_init c ms) (kevs (w ++ w')))) (kseen c ms (w ++ w'))
      (fst (run c (s_init c) (evs (w ++ w')))) (seen c (w ++ w')) /\
    up_rest (fst (krun (k_init c ms) (kevs (w ++ w')))) (kseen c ms (w ++ w'))
      (fst (run c (s_init c) (evs (w ++ w')))) (seen c (w ++ w')).
Proof.
  intros c ms w W U. destruct (comes_to_rest c ms w (conj W U)) as (w2 & (w' & G & -> & [W2 U2] & _) & R1 & R2).
  exists w'. split; [exact G|]. split; [exact W2|]. split; [exact U2|]. split; [exact R1|exact R2].
Qed.
(* So each request made so far can still have its contact, and each byte sent so far on
   each stream can still arrive, without anybody asking for or sending anything more. *)
Theorem C189_arrives : forall c ms w, whole c ms w -> unbroken w ->
  exists w', Forall goes_on w' /\ whole c ms (w ++ w') /\
    (exists q, requests c (evs w) q /\ Forall2 (deserves ms) q (contacts (kseen c ms (w ++ w')))) /\
    forall s, payload s (kdecoded (kseen c ms (w ++ w'))) = visitor_bytes c s (s_init c) (evs w) /\
      payload s (decoded (seen c (w ++ w'))) = service_bytes s (k_init c ms) (kevs w).
Proof.
  intros c ms w W U. destruct (C189_comes_to_rest c ms w W U) as (w' & G & W2 & _ & R1 & R2).
  pose proof (whole_tunnel _ _ _ W2) as T. exists w'. split; [exact G|]. split; [exact W2|]. split.
  - destruct (C189_connected _ _ _ _ _ _ _ _ T R1) as (q & Q & D). exists q. split; [|exact D].
    rewrite evs_app in Q. apply (requests_quiet c _ (evs w') q); [|exact Q].
    intros s v I. exact (evs_goes _ _ G I).
  - intros s. rewrite (C189_down _ _ _ _ _ _ _ _ T R1 s), (C189_up _ _ _ _ _ _ _ _ T R2 s), evs_app, kevs_app.
    rewrite visitor_quiet by (intros s' d I; exact (evs_goes _ _ G I)).
    rewrite service_quiet by (intros s' d I; exact (kevs_goes _ _ G I)). split; reflexivity.
Qed.
(* In full: each request made so far can still reach the local service it is for, with all
   the bytes its visitor has sent, and the visitor can still get all the bytes its service
   has sent.  (The conditions are those of C189_service and C189_visitor, on what has
   happened so far: stream numbers are not given twice, data leaves after requests, the
   mapping has a local address, nothing has been dropped, and the two are still there.) *)
Theorem C189_delivered : forall c ms w, whole c ms w -> unbroken w -> creates_first c w ->
  exists w', Forall goes_on w' /\ whole c ms (w ++ w') /\
    (exists q, requests c (evs w) q /\ Forall2 (deserves ms) q (contacts (kseen c ms (w ++ w'))) /\
     forall s d, In (s, d) q -> once s w -> ~ In (KOpen s) (kevs w) ->
       (forall d' m, In (s, d') q -> serves ms d' m -> proxy_word m \/ m_local m <> None) ->
       (forall h, In (QBind s h) (kseen c ms (w ++ w')) ->
          ~ In (KGone h) (kevs w) /\ ~ In (KConnErr h) (kevs w) /\ forall f, ~ In (QLost h f) (kseen c ms w)) ->
       exists h, In (QBind s h) (kseen c ms (w ++ w')) /\
         payload s (kgot h (kseen c ms (w ++ w'))) = visitor_bytes c s (s_init c) (evs w)) /\
    forall a s h b, seen c (w ++ w') = a ++ OBind s h :: b ->
      (forall h', ~ In (OBind s h') a) -> (forall h', ~ In (OBind s h') b) ->
      replies_only c ms s w -> ~ In (KOpen s) (kevs w) -> ~ In (EvGone h) (evs w) ->
      payload s (got h (seen c (w ++ w'))) = service_bytes s (k_init c ms) (kevs w).
Proof.
  intros c ms w W U Cf. destruct (all_taken c ms w (conj W U)) as (w2 & (w' & G & -> & [W2 U2] & Cf2 & _ & L2) & R1 & R2 & T1 & T2).
  specialize (Cf2 Cf). pose proof (whole_tunnel _ _ _ W2) as T. exists w'. split; [exact G|]. split; [exact W2|].
  assert (NoOpen : forall s, ~ In (KOpen s) (kevs w) -> ~ In (KOpen s) (kevs (w ++ w'))).
  { intros s H I. rewrite kevs_app in I. apply in_app_iff in I as [I|I]; [exact (H I)|exact (kevs_goes _ _ G I)]. }
  split.
  - destruct (C189_connected _ _ _ _ _ _ _ _ T R1) as (q & Q & D). rewrite evs_app in Q.
    apply requests_quiet in Q; [|intros s v I; exact (evs_goes _ _ G I)].
    exists q. split; [exact Q|]. split; [exact D|]. intros s d Hin Ho Hk Hm Hh.
    assert (B : exists h, In (QBind s h) (kseen c ms (w ++ w'))).
    { assert (X : exists x, In (s, x) (contacts (kseen c ms (w ++ w')))).
      { clear -Hin D. induction D as [|r y q l E D IH]; [destruct Hin|]. destruct Hin as [->|Hin].
        - destruct y as [s' x], E as [E _]. cbn in E. subst s'. exists x. left. reflexivity.
        - destruct (IH Hin) as (x & X). exists x. right. exact X. }
      destruct X as (x & X). apply contact_named in X as (h & y & Y1 & Y2 & _). exists h.
      exact (contact_bound c ms _ _ _ (cl_run c ms (w ++ w')) s h y Y1 Y2). }
    destruct (last_bind s _ B) as (a & h & b & E & Hb).
    assert (Bh : In (QBind s h) (kseen c ms (w ++ w'))) by (rewrite E; apply in_app_iff; right; left; reflexivity).
    destruct (Hh h Bh) as (H1 & H2 & H3).
    assert (Gf : kgone h (cl c ms (w ++ w')) = false).
    { destruct (kgone h (cl c ms (w ++ w'))) eqn:Eg; [|reflexivity]. exfalso.
      destruct (gone_why c ms h _ _ _ (cl_run c ms (w ++ w')) Eg) as [X|[X|(s' & X)]].
      - rewrite kevs_app in X. apply in_app_iff in X as [X|X]; [exact (H1 X)|exact (kevs_goes _ _ G X)].
      - rewrite kevs_app in X. apply in_app_iff in X as [X|X]; [exact (H2 X)|exact (kevs_goes _ _ G X)].
      - assert (s' = s) as ->.
        { apply (one_bind c ms _ _ _ s s' h (cl_run c ms (w ++ w')) Bh).
          apply (contact_bound c ms _ _ _ (cl_run c ms (w ++ w')) s' h (QNoAddr s' h) X). split; reflexivity. }
        assert (Y : In (s, Nowhere) (contacts (kseen c ms (w ++ w')))).
        { apply contact_named. exists h, (QNoAddr s h). split; [exact X|]. split; [split; reflexivity|reflexivity]. }
        clear -Y D Hm. induction D as [|[s0 d0] y q l Ed D IH]; [destruct Y|]. destruct Y as [->|Y].
        + destruct Ed as [Es (m & Sm & K)]. cbn [fst snd] in Es, Sm, K. subst s0.
          destruct (Hm d0 m (or_introl eq_refl) Sm) as [P|P]; destruct K as [[K1 K2]|[[K1 (x & K2 & K3)]|[K1 [K2 K3]]]]; try discriminate; contradiction.
        + apply IH; [|exact Y]. intros d' m I. exact (Hm d' m (or_intror I)). }
    exists h. split; [exact Bh|].
    rewrite (C189_service c ms _ W2 R1 a s h b E Hb (NoOpen s Hk) Cf2 (once_on _ _ _ G Ho)).
    + rewrite evs_app. apply visitor_quiet. intros s' x I. exact (evs_goes _ _ G I).
    + intros f X. destruct (L2 h f X) as [Y|Y]; [exact (H3 f Y)|congruence].
    + apply (T1 s h); [apply CcProofs.in_kbinds; exact Bh|exact Gf].
  - intros a s h b E Ha Hb Hr Hk Hg.
    assert (Hg2 : ~ In (EvGone h) (evs (w ++ w'))).
    { intros I. rewrite evs_app in I. apply in_app_iff in I as [I|I]; [exact (Hg I)|exact (evs_goes _ _ G I)]. }
    rewrite (C189_visitor c ms _ W2 R2 a s h b E Ha Hb (replies_on _ _ _ _ _ G Hr) (NoOpen s Hk) Hg2).
    + rewrite kevs_app. apply service_quiet. intros s' x I. exact (kevs_goes _ _ G I).
    + apply (T2 s h); [apply CsOwn.in_binds; rewrite E; apply in_app_iff; right; left; reflexivity|].
      exact (stays_there c h _ _ _ (sv_run c (w ++ w')) Hg2).
Qed.
Print Assumptions C189_requests.
Print Assumptions C189_delivered.
Print Assumptions C189_comes_to_rest.
Print Assumptions C189_arrives.
Print Assumptions C189_each.
Print Assumptions C189_connected.
Print Assumptions C189_down.
Print Assumptions C189_up.
Print Assumptions C189_service.
Print Assumptions C189_visitor.

(* The session of TunProps ends at rest, and all conditions hold of its stream. *)
Lemma ex_rest : down_rest (fst (krun (k_init ex_c ex_ms) (kevs ex_w))) (kseen ex_c ex_ms ex_w)
    (fst (run ex_c (s_init ex_c) (evs ex_w))) (seen ex_c ex_w) /\
  up_rest (fst (krun (k_init ex_c ex_ms) (kevs ex_w))) (kseen ex_c ex_ms ex_w)
    (fst (run ex_c (s_init ex_c) (evs ex_w))) (seen ex_c ex_w).
Proof. split; constructor; vm_compute; reflexivity. Qed.
Example C189_demo : whole ex_c ex_ms ex_w /\
  contacts (kseen ex_c ex_ms ex_w) = [(1, Contacted 8080)] /\
  (exists q, requests ex_c (evs ex_w) q /\ Forall2 (deserves ex_ms) q [(1, Contacted 8080)]) /\
  (exists a b, kseen ex_c ex_ms ex_w = a ++ QBind 1 0 :: b /\ (forall h', ~ In (QBind 1 h') b) /\
     k_box (fst (krun (k_init ex_c ex_ms) (kevs ex_w))) 0 = []) /\
  (exists a b, seen ex_c ex_w = a ++ OBind 1 0 :: b /\ (forall h', ~ In (OBind 1 h') a) /\ (forall h', ~ In (OBind 1 h') b) /\
     ~ In (EvGone 0) (evs ex_w) /\ s_box (fst (run ex_c (s_init ex_c) (evs ex_w))) 0 = []) /\
  visitor_bytes ex_c 1 (s_init ex_c) (evs ex_w) = [72; 105] /\
  service_bytes 1 (k_init ex_c ex_ms) (kevs ex_w) = [111; 107].
Proof.
  split; [exact ex_whole|].
  assert (E : contacts (kseen ex_c ex_ms ex_w) = [(1, Contacted 8080)]) by (vm_compute; reflexivity).
  split; [exact E|]. split.
  { rewrite <- E. exact (C189_connected _ _ _ _ _ _ _ _ (whole_tunnel _ _ _ ex_whole) (proj1 ex_rest)). }
  split.
  { exists (firstn 3 (kseen ex_c ex_ms ex_w)), (skipn 4 (kseen ex_c ex_ms ex_w)).
    split; [vm_compute; reflexivity|]. split; [|vm_compute; reflexivity]. intros h'. vm_compute. intuition discriminate. }
  split.
  { exists (firstn 4 (seen ex_c ex_w)), (skipn 5 (seen ex_c ex_w)).
    split; [vm_compute; reflexivity|]. split; [intros h'; vm_compute; intuition discriminate|].
    split; [intros h'; vm_compute; intuition discriminate|]. split; [vm_compute; intuition discriminate|vm_compute; reflexivity]. }
  split; vm_compute; reflexivity.
Qed.
(* The first part of that session is not at rest: a request is queued at the server and
   the client has not contacted anything. *)
Example C189_going_demo : let w := firstn 11 ex_w in whole ex_c ex_ms w /\ unbroken w /\
  requests ex_c (evs w) [(1, txt "w.com")] /\ visitor_bytes ex_c 1 (s_init ex_c) (evs w) = [72; 105] /\
  contacts (kseen ex_c ex_ms w) = [] /\ kdecoded (kseen ex_c ex_ms w) = [] /\ written (seen ex_c w) = [] /\
  creates_first ex_c w /\ once 1 w /\ ~ In (KOpen 1) (kevs w) /\ replies_only ex_c ex_ms 1 w /\
  (forall m, In m ex_ms -> m_local m <> None) /\
  (forall h, ~ In (KGone h) (kevs w) /\ ~ In (KConnErr h) (kevs w) /\ ~ In (EvGone h) (evs w) /\ forall f, ~ In (QLost h f) (kseen ex_c ex_ms w)).
Proof.
  cbv zeta. split.
  { apply (whole_prefix _ _ _ (skipn 11 ex_w)). rewrite firstn_skipn. exact ex_whole. }
  split. { repeat constructor; intros []. }
  split.
  { apply (requests_quiet _ _ (skipn 9 ex_es)).
    - intros s v. cbn. intuition discriminate.
    - change (requests ex_c (firstn 9 ex_es ++ skipn 9 ex_es) [(1, txt "w.com")]). rewrite firstn_skipn.
      pose proof C85_demo as X. destruct (run ex_c (s_init ex_c) ex_es). exact (proj1 (proj2 X)). }
  do 4 (split; [vm_compute; reflexivity|]).
  split; [apply first_check; vm_compute; reflexivity|].
  split.
  { intros p v q v' E. assert (O : once 1 ex_w) by (destruct C89_all_demo as (a & b & a' & b' & H); apply H).
    intros I. apply (O p v (q ++ evs (skipn 11 ex_w)) v'); [|apply in_app_iff; left; exact I].
    rewrite <- (firstn_skipn 11 ex_w) at 1. rewrite evs_app, E, <- app_assoc. reflexivity. }
  split; [vm_compute; intuition discriminate|].
  split.
  { intros p d q E. apply (ex_replies p d (q ++ skipn 11 ex_w)). rewrite <- (firstn_skipn 11 ex_w) at 1. rewrite E, <- app_assoc. reflexivity. }
  split; [intros m [<-|[<-|[]]]; discriminate|].
  intros h. repeat split; [..|intros f]; vm_compute; intuition discriminate.
Qed.
(* So the two bytes its visitor has sent can still reach the service at port 8080. *)
Example C189_delivered_demo : exists w' h, Forall goes_on w' /\
  contacts (kseen ex_c ex_ms (firstn 11 ex_w ++ w')) = [(1, Contacted 8080)] /\
  payload 1 (kgot h (kseen ex_c ex_ms (firstn 11 ex_w ++ w'))) = [72; 105].
Proof.
  destruct C189_going_demo as (W & U & Q & V & _ & _ & _ & Cf & Ho & Hk & _ & Hm & Hn).
  destruct (C189_delivered _ _ _ W U Cf) as (w' & G & _ & (q & Q' & D & H) & _).
  rewrite <- (requests_one _ _ _ Q _ Q') in D, H.
  destruct (H 1 (txt "w.com") (or_introl eq_refl) Ho Hk) as (h & _ & P).
  - intros d' m _ (b & a & E & _). right. apply Hm. rewrite E. apply in_app_iff. right. left. reflexivity.
  - intros h _. destruct (Hn h) as (A & B & _ & C). repeat split; assumption.
  - exists w', h. split; [exact G|]. rewrite V in P. split; [|exact P].
    revert D. generalize (contacts (kseen ex_c ex_ms (firstn 11 ex_w ++ w'))) as l0. intros l0 D.
    destruct l0 as [|[s x] l0]; [inversion D|]. inversion D as [|? ? ? ? E D1]. inversion D1. subst. clear D D1. destruct E as [E (m & (b & a & E1 & Hh & _) & K)]. cbn [fst snd] in *. subst s.
    assert (m = web) as ->.
    { destruct b as [|m1 [|m2 b]]; [injection E1 as <- _; reflexivity| |destruct b; discriminate].
      injection E1 as <- <- _. exfalso. revert Hh. vm_compute. intuition discriminate. }
    destruct K as [[K _]|[[_ (x0 & K & K2)]|[_ [K _]]]].
    + exfalso. assert (Len : forall (R : N -> N -> Prop) l1 l2, Forall2 R l1 l2 -> List.length l1 = List.length l2).
      { intros R l1 l2 F. induction F; cbn; congruence. }
      apply Len in K. vm_compute in K. discriminate K.
    + cbn in K. injection K as <-. rewrite K2. reflexivity.
    + discriminate K.
Qed.
