(* Property theorems for the tunnel client: C09, C10, C11, C50. *)
From Coq Require Import String.
From Verif Require Import Base Text ProtModel ProtSpec CsModel CsSpec CcModel CcSpec CcProofs CcCreate CcStuck ProtProofs.
Open Scope N_scope.

(* a mapping of the proxy mode, in whatever case it is written *)
Definition proxy_mode (m : mapping) : Prop :=
  Forall2 (fun a b => a = b \/ a + 32 = b) (m_mode m) (txt "proxy").
Lemma proxy_spelled m : is_proxy m = true <-> proxy_mode m.
Proof.
  unfold is_proxy, eq_ignore_case, proxy_mode. rewrite leqb_ok. change (map lower (txt "proxy")) with (txt "proxy").
  assert (L : forall w s, forallb (fun b => (97 <=? b) && (b <=? 122)) w = true -> (map lower s = w <-> Forall2 (fun a b => a = b \/ a + 32 = b) s w)).
  { induction w as [|b w IH]; intros s F; split; intros H.
    - destruct s; [constructor | discriminate].
    - inversion H. reflexivity.
    - destruct s as [|a s]; [discriminate|]. cbn [map] in H. injection H as H1 H2. cbn [forallb] in F. apply andb_prop in F as [F1 F2].
      constructor; [|apply IH; auto]. unfold lower in H1. destruct ((65 <=? a) && (a <=? 90)); auto.
    - inversion H as [|a b' s' w' A B]; subst. cbn [forallb] in F. apply andb_prop in F as [F1 F2]. cbn [map]. f_equal; [|apply IH; auto].
      apply andb_prop in F1 as [F3 F4]. apply N.leb_le in F3. apply N.leb_le in F4. unfold lower.
      destruct ((65 <=? a) && (a <=? 90)) eqn:E.
      + apply andb_prop in E as [E1 E2]. apply N.leb_le in E1. apply N.leb_le in E2. lia.
      + apply andb_false_iff in E. rewrite !N.leb_gt in E. lia. }
  apply L. reflexivity.
Qed.

(* C09: every create frame is answered at once by binding a handler and using the
   last mapping that hits; without such a mapping by a close - unless the
   outgoing channel is full, in which case the loop stands still (C50). *)
Theorem C09_mapping_partial : forall c ms es st tr a s dom b,
  krun (k_init c ms) es = (st, tr) -> tr = a ++ QDecoded (FCreate s dom) :: b ->
  (exists m h x b', serves ms (asked dom) m /\ b = QBind s h :: x :: b' /\
     ((proxy_mode m /\ x = QProxy s h m) \/
      (~ proxy_mode m /\ exists ad, m_local m = Some ad /\ x = QConnect s h ad) \/
      (~ proxy_mode m /\ m_local m = None /\ x = QNoAddr s h))) \/
  (Forall (fun m => ~ hits (asked dom) m) ms /\
     ((exists b', b = QReject s :: b') \/
      (k_phase st = KStuck (FClose s []) /\ out_cap <= nlen (k_out st)))).
Proof.
  intros c ms es st tr a s dom b H E. destruct (create_outcome c ms es st tr a s dom b H E) as [(m & h & x & b' & A & B & X)|X]; [left|right; exact X].
  exists m, h, x, b'. split; [exact A|]. split; [exact B|].
  destruct X as [(P & X)|[(P & X)|(P & X)]]; [left; rewrite <- proxy_spelled; auto | right; left | right; right]; (split; [rewrite <- proxy_spelled, P; discriminate | exact X]).
Qed.
(* The mapping that serves is unique. *)
Theorem C09_mapping_unique : forall ms d m m', serves ms d m -> serves ms d m' -> m = m'.
Proof. exact serves_unique. Qed.
(* The close is on the wire or queued for it. *)
Theorem C09_close_sent : forall c ms es st tr s,
  krun (k_init c ms) es = (st, tr) -> In (QReject s) tr ->
  exists l, kwritten tr ++ k_wbuf st = fst (hello c ms) ++ flat_map (fun f => fst (encode f)) l /\
    In (FClose s []) (l ++ k_out st).
Proof. exact close_sent. Qed.
(* Nothing is contacted except for a create frame just received. *)
Theorem C09_only_on_create : forall c ms es st tr a s h x b,
  krun (k_init c ms) es = (st, tr) -> tr = a ++ x :: b ->
  (exists ad, x = QConnect s h ad) \/ (exists m, x = QProxy s h m) ->
  exists a' dom, a = a' ++ [QDecoded (FCreate s dom); QBind s h].
Proof. exact contact_origin. Qed.
(* Other streams keep their handler, its unread frames and its liveness. *)
Theorem C09_others_untouched : forall f st s dom s', f = FCreate s dom -> s' <> s ->
  lookup N.eqb s' (k_map (fst (khandle f st))) = lookup N.eqb s' (k_map st) /\
  (forall h, k_box (fst (khandle f st)) h = k_box st h) /\
  (forall h, h <> k_next st -> kgone h (fst (khandle f st)) = kgone h st).
Proof. exact create_others. Qed.

Definition kcreds := Creds None None.
Definition ex_map (n d : string) (ad : option N) := Mapping (txt n) (txt "http") ad (txt d) [].
Definition ex_maps := [ex_map "a" "x.com" (Some 1); ex_map "x.com" "y.com" (Some 2); ex_map "n" "z.com" None].
Example C09_nonvacuous :
  let bs := wire [FCreate 1 (Some (txt "x.com")); FCreate 3 (Some (txt "none")); FCreate 5 (Some (txt "n"))] in
  snd (krun (k_init kcreds ex_maps) [KRead bs; KStep; KStep; KStep]) =
  [QRead bs; QDecoded (FCreate 1 (Some (txt "x.com"))); QBind 1 0; QConnect 1 0 2;
   QDecoded (FCreate 3 (Some (txt "none"))); QReject 3;
   QDecoded (FCreate 5 (Some (txt "n"))); QBind 5 1; QNoAddr 5 1].
Proof. vm_compute. reflexivity. Qed.
Example C09_proxy_example : proxy_mode (Mapping [] (txt "PrOXY") None [] []) /\ ~ proxy_mode (ex_map "a" "b" None).
Proof. rewrite <- !proxy_spelled. split; [reflexivity | discriminate]. Qed.
Example C09_serves_example : serves ex_maps (txt "x.com") (ex_map "x.com" "y.com" (Some 2)).
Proof.
  exists [ex_map "a" "x.com" (Some 1)], [ex_map "n" "z.com" None].
  split; [reflexivity|]. split; [right; reflexivity|]. constructor; [|constructor].
  intros [H|H]; discriminate H.
Qed.
Print Assumptions C09_mapping_partial.
Print Assumptions C09_mapping_unique.
Print Assumptions C09_close_sent.
Print Assumptions C09_only_on_create.
Print Assumptions C09_others_untouched.

(* C10: the frames handed over are a subsequence, in order, of the frames the
   routing rule prescribes (each to the handler bound last to its id). *)
Theorem C10_ordered : forall c ms es st tr, krun (k_init c ms) es = (st, tr) ->
  subseq (khanded tr) (kroute (fun _ => None) tr).
Proof.
  intros c ms es st tr H. change (fun _ : N => None) with CsRoute.none.
  rewrite <- (proj1 (kinv_reach c ms es st tr H)). exact (khanded_sub tr).
Qed.
(* ... of the frames received ... *)
Theorem C10_source : forall c ms es st tr, krun (k_init c ms) es = (st, tr) ->
  (exists more, frames (kbytes_read tr) = kdecoded tr ++ more) /\
  (k_phase st = KSelect -> frames (kbytes_read tr) = kdecoded tr).
Proof. exact ksource. Qed.
(* ... and each handler receives what it was given, in order. *)
Theorem C10_fifo : forall c ms es st tr, krun (k_init c ms) es = (st, tr) ->
  forall h, kgot h tr ++ k_box st h = kgiven h tr.
Proof. intros c ms es st tr H. exact (proj1 (proj2 (proj2 (kinv_reach c ms es st tr H)))). Qed.
Theorem C10_isolation : forall c ms es st tr s h f,
  krun (k_init c ms) es = (st, tr) -> In (QBind s h) tr -> In f (kgiven h tr) -> frame_sock f = s.
Proof. exact kisolation. Qed.
Definition ex_wire2 := wire [FCreate 1 (Some (txt "a")); FCreate 3 (Some (txt "a")); FData 3 [9]; FData 1 [7];
                            FData 5 [1]; FClose 1 []].
Example C10_nonvacuous :
  let '(st, tr) := krun (k_init kcreds ex_maps) ([KRead ex_wire2] ++ repeat KStep 7 ++ [KConsume 0]) in
  kroute (fun _ => None) tr = [(1, FData 3 [9]); (0, FData 1 [7]); (0, FClose 1 [])] /\
  kgot 0 tr = [FData 1 [7]] /\ k_box st 0 = [FClose 1 []] /\ k_phase st = KSelect.
Proof. vm_compute. repeat split. Qed.
Print Assumptions C10_ordered.
Print Assumptions C10_source.
Print Assumptions C10_fifo.
Print Assumptions C10_isolation.

(* C11 full statement: every data frame for an open stream is handed over,
   whatever the relative speeds.  False, whatever the credentials, the mappings and the
   data: when a stream is opened and its data comes faster than its handler, which is
   there all the time, takes it, the first ten pieces are kept and every later one is
   discarded. *)
Lemma choose_serves ms d m : serves ms d m -> choose ms d = Some m.
Proof.
  intro V. destruct (choose ms d) as [m'|] eqn:E.
  - f_equal. exact (serves_unique ms d m' m (choose_some _ _ _ E) V).
  - apply choose_none in E. destruct V as (b & a & -> & V & _). rewrite Forall_forall in E. exfalso. apply (E m); [|exact V]. apply in_app_iff. right. now left.
Qed.
Lemma hello_goes c ms : fits (FMapping 0 ms) -> (forall u p, c_user c = Some u -> c_pass c = Some p -> fits (FToken u p)) -> snd (hello c ms) = None.
Proof.
  intros F T. unfold hello.
  assert (A : snd (match c_user c, c_pass c with Some u, Some p => encode (FToken u p) | _, _ => ([], None) end) = None).
  { destruct (c_user c) as [u|]; [|reflexivity]. destruct (c_pass c) as [p|]; [|reflexivity]. exact (proj1 (roundtrip _ [] (T u p eq_refl eq_refl))). }
  assert (B : snd (match ms with [] => ([], None) | _ => encode (FMapping 0 ms) end) = None).
  { destruct ms as [|m ms]; [reflexivity|]. exact (proj1 (roundtrip _ [] F)). }
  assert (Q : forall a b : wr, snd a = None -> snd b = None -> snd (wseq a b) = None) by (intros [x e] [y e'] E1 E2; cbn [snd] in *; subst; reflexivity).
  apply Q; [exact A|exact B].
Qed.
Lemma slow_run s h ds : Forall (fun d => fits (FData s d)) ds -> forall st,
  k_phase st = KDecode -> k_rbuf st = wire (map (FData s) ds) -> lookup N.eqb s (k_map st) = Some h -> kgone h st = false -> (length (k_box st h) <= 10)%nat ->
  exists st' tr, krun st (repeat KStep (length ds)) = (st', tr) /\ kgone h st' = false /\
    kgiven h tr = firstn (10 - length (k_box st h)) (map (FData s) ds) /\ kmissed h tr = skipn (10 - length (k_box st h)) (map (FData s) ds).
Proof.
  induction ds as [|d ds IH]; intros F st P R L G B.
  - exists st, []. cbn. rewrite firstn_nil, skipn_nil. auto.
  - inversion F as [|? ? F1 F2]; subst. cbn [length repeat krun]. cbn [kstep]. rewrite P, R. cbn [map wire flat_map]. fold (wire (map (FData s) ds)).
    rewrite (proj2 (roundtrip _ _ F1)). cbn [public khandle kset_rbuf k_map]. rewrite L. unfold ktry_send.
    change (kgone h (kset_rbuf (wire (map (FData s) ds)) st)) with (kgone h st). rewrite G. cbn [orb kset_rbuf k_box].
    destruct (nlen (k_box st h) <? handler_cap) eqn:E; cbn [negb].
    + assert (E' : (length (k_box st h) < 10)%nat) by (apply N.ltb_lt in E; unfold nlen, handler_cap in E; lia).
      edestruct (IH F2 (kset_box h (k_box st h ++ [FData s d]) (kset_rbuf (wire (map (FData s) ds)) st))) as (st' & tr & A1 & A2 & A3 & A4);
        [exact P|reflexivity|exact L|exact G| |].
      { cbn [kset_box k_box]. rewrite N.eqb_refl, app_length. cbn [length]. lia. }
      rewrite A1. eexists _, _. split; [reflexivity|]. split; [exact A2|]. cbn [kset_box k_box] in A3, A4. rewrite N.eqb_refl, app_length in A3, A4. cbn [length] in A3, A4.
      replace (10 - length (k_box st h))%nat with (S (10 - (length (k_box st h) + 1))) by lia.
      cbn [app kgiven kmissed flat_map firstn skipn]. rewrite N.eqb_refl. fold (kgiven h tr). fold (kmissed h tr). rewrite A3, A4. split; reflexivity.
    + assert (E' : (10 - length (k_box st h) = 0)%nat) by (apply N.ltb_ge in E; unfold nlen, handler_cap in E; lia).
      edestruct (IH F2 (kset_rbuf (wire (map (FData s) ds)) st)) as (st' & tr & A1 & A2 & A3 & A4);
        [exact P|reflexivity|exact L|exact G|exact B|].
      rewrite A1. eexists _, _. split; [reflexivity|]. split; [exact A2|]. cbn [kset_rbuf k_box] in A3, A4. rewrite E' in *.
      cbn [app kgiven kmissed flat_map firstn skipn] in *. rewrite N.eqb_refl. fold (kgiven h tr). fold (kmissed h tr). rewrite A3, A4. split; reflexivity.
Qed.
Theorem C11_no_loss_refuted : forall c ms s a m ds,
  fits (FMapping 0 ms) -> (forall u p, c_user c = Some u -> c_pass c = Some p -> fits (FToken u p)) ->
  serves ms a m -> proxy_mode m \/ m_local m <> None -> fits (FCreate s (Some a)) -> Forall (fun d => fits (FData s d)) ds ->
  exists st tr h, krun (k_init c ms) (KRead (wire (FCreate s (Some a) :: map (FData s) ds)) :: repeat KStep (1 + length ds)) = (st, tr) /\
    In (QBind s h) tr /\ kgone h st = false /\
    kgiven h tr = firstn 10 (map (FData s) ds) /\ kmissed h tr = skipn 10 (map (FData s) ds).
Proof.
  intros c ms s a m ds FM FT V LM FC FD.
  assert (P0 : k_phase (k_init c ms) = KSelect) by (unfold k_init; cbn [k_phase]; rewrite (hello_goes c ms FM FT); reflexivity).
  destruct (roundtrip _ (wire (map (FData s) ds)) FC) as [_ D].
  assert (NE : exists x y, wire (FCreate s (Some a) :: map (FData s) ds) = x :: y).
  { destruct (wire (FCreate s (Some a) :: map (FData s) ds)) eqn:E; [|eauto]. cbn [wire flat_map] in E. fold (wire (map (FData s) ds)) in E. rewrite E in D. vm_compute in D. discriminate D. }
  destruct NE as (x & y & NE). cbn [repeat Nat.add krun]. set (k0 := k_init c ms) in *.
  assert (E1 : kstep k0 (KRead (wire (FCreate s (Some a) :: map (FData s) ds))) = (kset_phase KDecode (kset_rbuf (wire (FCreate s (Some a) :: map (FData s) ds)) k0), [QRead (wire (FCreate s (Some a) :: map (FData s) ds))])).
  { cbn [kstep]. rewrite P0, NE. reflexivity. }
  rewrite E1. cbv beta iota. set (k1 := kset_phase _ _).
  set (k2 := let st1 := kfresh (kset_map (insert N.eqb s 0 (k_map k0)) (kset_rbuf (wire (map (FData s) ds)) k1)) in if is_proxy m then st1 else kset_conn ((0, s) :: k_conn st1) st1).
  assert (E2 : exists o, kstep k1 KStep = (k2, QDecoded (FCreate s (Some a)) :: QBind s 0 :: o) /\ kgiven 0 o = [] /\ kmissed 0 o = []).
  { unfold k1. cbn [kstep kset_phase k_phase kset_rbuf k_rbuf]. change (wire (FCreate s (Some a) :: map (FData s) ds)) with (fst (encode (FCreate s (Some a))) ++ wire (map (FData s) ds)). rewrite D. cbn [public khandle].
    change (k_maps _) with ms. rewrite (choose_serves _ _ _ V). unfold k2, k1. destruct (is_proxy m) eqn:X; [eexists; split; [reflexivity|split; reflexivity]|].
    destruct (m_local m) as [ad|] eqn:Y; [eexists; split; [reflexivity|split; reflexivity]|]. exfalso. destruct LM as [LM|LM]; [apply proxy_spelled in LM; congruence|exact (LM eq_refl)]. }
  destruct E2 as (o & E2 & O1 & O2). rewrite E2. cbv beta iota.
  assert (K2 : k_phase k2 = KDecode /\ k_rbuf k2 = wire (map (FData s) ds) /\ lookup N.eqb s (k_map k2) = Some 0 /\ kgone 0 k2 = false /\ k_box k2 0 = []).
  { unfold k2, k1. destruct (is_proxy m); cbn; (split; [reflexivity|split; [reflexivity|split; [rewrite N.eqb_refl; reflexivity|split; reflexivity]]]). }
  destruct K2 as (A & B & C & G & X).
  destruct (slow_run s 0 ds FD k2 A B C G) as (st & tr & R & G' & T1 & T2); [rewrite X; cbn; lia|]. rewrite X in T1, T2. cbn [length Nat.sub] in T1, T2.
  rewrite R. eexists _, _, 0. split; [reflexivity|]. split; [cbn; tauto|]. split; [exact G'|].
  change ([QRead (wire (FCreate s (Some a) :: map (FData s) ds))] ++ (QDecoded (FCreate s (Some a)) :: QBind s 0 :: o) ++ tr) with ([QRead (wire (FCreate s (Some a) :: map (FData s) ds)); QDecoded (FCreate s (Some a)); QBind s 0] ++ (o ++ tr)).
  rewrite !kgiven_app, !kmissed_app, O1, O2. cbn [kgiven kmissed flat_map app]. split; assumption.
Qed.
Example C11_no_loss_case : let m := Mapping (txt "a") (txt "http") (Some 5) (txt "a.com") [] in
  serves [m] (txt "a") m /\ m_local m <> None /\ fits (FMapping 0 [m]) /\
  fits (FCreate 2 (Some (txt "a"))) /\ Forall (fun d => fits (FData 2 d)) (repeat [7] 11).
Proof.
  cbv zeta. split; [exists [], []; split; [reflexivity|]; split; [right; reflexivity|constructor]|]. split; [discriminate|].
  assert (W : wire_sock 2) by (exists 0, 2; repeat split; lia). assert (W0 : wire_sock 0) by (exists 0, 0; repeat split; lia).
  assert (A : forall b, forallb (fun c => c <? 0x80) b && (nlen b <=? 255) = true -> short_string b).
  { intros b H. apply andb_prop in H as [H1 H2]. split; [apply is_string_ascii; exact H1|lia]. }
  split; [|split].
  - split; [exact W0|]. split; [reflexivity|]. split; [|reflexivity]. constructor; [|constructor].
    split; [apply A; reflexivity|]. split; [apply A; reflexivity|]. split; [apply A; reflexivity|]. split; [reflexivity|constructor].
  - split; [exact W|]. split; [discriminate|apply A; reflexivity].
  - apply Forall_forall. intros d I. apply repeat_spec in I. subst d. split; [exact W|]. split; reflexivity.
Qed.
(* Proved part: frames are lost only when the handler is gone or has ten unread
   frames; without such a moment everything routed is handed over. *)
Theorem C11_loss_only_when_full_partial : forall es c ms h f,
  In (QLost h f) (snd (krun (k_init c ms) es)) ->
  exists e1 e e2, es = e1 ++ e :: e2 /\ let st1 := fst (krun (k_init c ms) e1) in
    (kgone h st1 = true \/ handler_cap <= nlen (k_box st1 h)).
Proof. intros es c ms. exact (lost_hist es (k_init c ms)). Qed.
Theorem C11_complete_partial : forall c ms es st tr, krun (k_init c ms) es = (st, tr) ->
  (forall h f, ~ In (QLost h f) tr) -> khanded tr = kroute (fun _ => None) tr.
Proof. exact nothing_lost. Qed.
Print Assumptions C11_no_loss_refuted.
Print Assumptions C11_loss_only_when_full_partial.
(* ten unread frames are all kept; the eleventh is lost *)
Example C11_cases :
  let es n := KRead (wire (FCreate 1 (Some (txt "a")) :: repeat (FData 1 [7]) n)) :: repeat KStep (S n) in
  (forall h f, ~ In (QLost h f) (snd (krun (k_init kcreds ex_maps) (es 10%nat)))) /\
  nlen (khanded (snd (krun (k_init kcreds ex_maps) (es 10%nat)))) = 10 /\
  In (QLost 0 (FData 1 [7])) (snd (krun (k_init kcreds ex_maps) (es 11%nat))) /\
  nlen (k_box (fst (krun (k_init kcreds ex_maps) (es 10%nat))) 0) = handler_cap.
Proof.
  cbv zeta. split; [|split; [vm_compute; reflexivity|split; [vm_compute; tauto|vm_compute; reflexivity]]].
  intros h f H. vm_compute in H. repeat (destruct H as [H|H]; [discriminate H|]). exact H.
Qed.
Print Assumptions C11_complete_partial.

(* C50 full statement: the client loop always keeps serving its streams.  False:
   with 100 frames queued by local handlers, one create frame for an unmapped
   domain makes the loop wait for room that only the loop itself could make;
   whatever happens afterwards, no frame is read, routed or written any more. *)
Definition stuck_history : list kev :=
  KRead (wire [FCreate 1 (Some (txt "none"))]) :: repeat (KData 9 [1]) 100 ++ [KStep].
Theorem C50_self_deadlock_refuted :
  let st := fst (krun (k_init kcreds ex_maps) stuck_history) in
  k_phase st = KStuck (FClose 1 []) /\
  forall es o, In o (snd (krun st es)) -> ~ kloop_work o.
Proof.
  cbv zeta. split; [vm_compute; reflexivity|]. intros es.
  refine (proj2 (kstuck_forever es _ (FClose 1 []) _ _)); vm_compute; (reflexivity || discriminate).
Qed.
Lemma krun_app es1 : forall st es2, krun st (es1 ++ es2) =
  let '(st1, o1) := krun st es1 in let '(st2, o2) := krun st1 es2 in (st2, o1 ++ o2).
Proof.
  induction es1 as [|e es1 IH]; intros st es2; cbn [app krun]; [destruct (krun st es2); reflexivity|].
  destruct (kstep st e) as [st1 o1]. rewrite IH. destruct (krun st1 es1) as [st2 o2]. destruct (krun st2 es2) as [st3 o3].
  rewrite app_assoc. reflexivity.
Qed.
(* C09 in full is false for the same reason: the create frame was taken, no mapping serves it
   and, whatever happens next, no close for it is ever queued and no byte written. *)
Theorem C09_close_refuted : exists dom, Forall (fun m => ~ hits (asked dom) m) ex_maps /\
  forall es st tr, krun (k_init kcreds ex_maps) (stuck_history ++ es) = (st, tr) ->
    In (QDecoded (FCreate 1 dom)) tr /\ ~ In (QReject 1) tr /\ kwritten tr = [].
Proof.
  exists (Some (txt "none")). split.
  { repeat constructor; intros [H|H]; vm_compute in H; discriminate H. }
  intros es st tr H. rewrite krun_app in H.
  destruct (krun (k_init kcreds ex_maps) stuck_history) as [st0 tr0] eqn:E0. destruct (krun st0 es) as [st1 tr1] eqn:E1.
  injection H as <- <-. pose proof (proj2 C50_self_deadlock_refuted es) as Q. cbv zeta in Q. rewrite E0 in Q. cbn [fst] in Q. rewrite E1 in Q. cbn [snd] in Q.
  assert (T0 : tr0 = snd (krun (k_init kcreds ex_maps) stuck_history)) by (rewrite E0; reflexivity).
  split; [apply in_or_app; left; rewrite T0; vm_compute; tauto|]. split.
  - intros Hin. apply in_app_or in Hin as [Hin|Hin]; [rewrite T0 in Hin; vm_compute in Hin; repeat (destruct Hin as [Hin|Hin]; [discriminate Hin|]); exact Hin|].
    exact (Q _ Hin I).
  - assert (K0 : kwritten tr0 = []) by (rewrite T0; vm_compute; reflexivity). unfold kwritten in *. rewrite flat_map_app, K0. clear - Q.
    induction tr1 as [|o tr1 IH]; [reflexivity|]. cbn [flat_map app]. cbn [app] in IH.
    rewrite (IH (fun o' Ho => Q o' (or_intror Ho))).
    destruct o; try reflexivity. destruct (Q _ (or_introl eq_refl) I).
Qed.
Print Assumptions C09_close_refuted.
Theorem C50_stuck_forever : forall es st f,
  k_phase st = KStuck f -> out_cap <= nlen (k_out st) ->
  k_phase (fst (krun st es)) = KStuck f /\ (forall o, In o (snd (krun st es)) -> ~ kloop_work o).
Proof. exact kstuck_forever. Qed.
(* Proved part: only then.  Whenever the loop waits for itself, the last thing it did
   was to receive a create frame for a domain none of the mappings serves, with the
   channel to the tunnel full. *)
Theorem C50_only_then_partial : forall c ms es st tr f,
  krun (k_init c ms) es = (st, tr) -> k_phase st = KStuck f ->
  exists a s dom b, tr = a ++ QDecoded (FCreate s dom) :: b /\ f = FClose s [] /\
    Forall (fun m => ~ hits (asked dom) m) ms /\ out_cap <= nlen (k_out st) /\
    forall o, In o b -> ~ kloop_work o.
Proof. exact stuck_only. Qed.
Print Assumptions C50_only_then_partial.
Print Assumptions C50_self_deadlock_refuted.
Print Assumptions C50_stuck_forever.
