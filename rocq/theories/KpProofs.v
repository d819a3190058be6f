From Verif Require Import Base Text ProtModel ProtSpec ProtProofs CsModel CsSpec CcModel CcSpec HealthModel LimModel LimProofs KpSpec.
Open Scope N_scope.

Section Keys.
  Context {K V : Type} (eqb : K -> K -> bool).
  Context (eqb_ok : forall a b, eqb a b = true <-> a = b).
  Lemma kp_keys (a : K) (v : V) m :
    map fst (insert eqb a v m) = if has eqb a m then map fst m else map fst m ++ [a].
  Proof.
    induction m as [|[k w] m IH]; [reflexivity|]. cbn [insert map fst]. unfold has in *. cbn [lookup].
    destruct (eqb a k) eqn:E.
    - apply eqb_ok in E as ->. reflexivity.
    - cbn [map fst]. rewrite IH. destruct (lookup eqb a m); reflexivity.
  Qed.
  Lemma kp_has a (m : list (K * V)) : has eqb a m = true <-> In a (map fst m).
  Proof.
    unfold has. induction m as [|[k w] m IH]; cbn [lookup map fst In]; [split; [discriminate|intros []]|].
    destruct (eqb a k) eqn:E.
    - apply eqb_ok in E as ->. split; auto.
    - rewrite IH. split; [auto|]. intros [->|H]; [|exact H]. rewrite (proj2 (eqb_ok a a) eq_refl) in E. discriminate.
  Qed.
  Lemma kp_nodup a (v : V) m : NoDup (map fst m) -> NoDup (map fst (insert eqb a v m)).
  Proof.
    intros H. rewrite kp_keys. destruct (has eqb a m) eqn:E; [exact H|].
    apply NoDup_snoc; [exact H|]. intros X. apply kp_has in X. congruence.
  Qed.
  Lemma kp_in a (v : V) m x : In x (map fst (insert eqb a v m)) <-> x = a \/ In x (map fst m).
  Proof.
    rewrite kp_keys. destruct (has eqb a m) eqn:E.
    - apply kp_has in E. split; [auto|]. intros [->|H]; auto.
    - rewrite in_app_iff. cbn [In]. split; intros [H|H]; auto. destruct H as [->|[]]; auto.
  Qed.
  Definition add_all (l : list (K * V)) m := fold_left (fun m kv => insert eqb (fst kv) (snd kv) m) l m.
  Lemma add_all_nodup l : forall m, NoDup (map fst m) -> NoDup (map fst (add_all l m)).
  Proof. induction l as [|[k v] l IH]; intros m H; cbn; [exact H|]. apply IH, kp_nodup, H. Qed.
  Lemma add_all_in l : forall m x, In x (map fst (add_all l m)) <-> In x (map fst l) \/ In x (map fst m).
  Proof.
    induction l as [|[k v] l IH]; intros m x; cbn [add_all fold_left map fst In]; [tauto|].
    fold (add_all l (insert eqb k v m)). rewrite IH, kp_in. cbn [snd]. intuition congruence.
  Qed.
  Lemma add_all_app l1 l2 m : add_all (l1 ++ l2) m = add_all l2 (add_all l1 m).
  Proof. apply fold_left_app. Qed.
End Keys.

(* ---- the server's end ------------------------------------------------------ *)
Definition binds (o : list eff) : list (N * N) :=
  flat_map (fun x => match x with OBind s h => [(s, h)] | _ => [] end) o.
Lemma in_binds o s h : In (s, h) (binds o) <-> In (OBind s h) o.
Proof.
  unfold binds. rewrite in_flat_map. split.
  - intros (x & H & X). destruct x; cbn in X; try contradiction. destruct X as [X|[]]. injection X as -> ->. exact H.
  - intros H. exists (OBind s h). split; [exact H|left; reflexivity].
Qed.
Lemma say_bye_map m : forall st, s_map (fst (say_bye m st)) = s_map st /\ binds (snd (say_bye m st)) = [].
Proof.
  induction m as [|[s h] m IH]; intros st; cbn [say_bye]; [split; reflexivity|].
  destruct (gone h st || negb (nlen (s_box st h) <? handler_cap)); [apply IH|].
  specialize (IH (set_box h (s_box st h ++ [FClose s []]) st)). destruct (say_bye m _) as [st' es]. exact IH.
Qed.
Lemma deliver_map h f st : s_map (fst (deliver h f st)) = s_map st /\ binds (snd (deliver h f st)) = [].
Proof. unfold deliver. destruct (gone h st); [split; reflexivity|]. destruct (_ <? _); split; reflexivity. Qed.
Lemma closed_map st : s_map (fst (tunnel_closed st)) = s_map st /\ binds (snd (tunnel_closed st)) = [].
Proof.
  unfold tunnel_closed. destruct (say_bye_map (s_map st) st) as [A B]. destruct (say_bye (s_map st) st) as [st' es].
  cbn [fst snd] in *. split; [exact A|]. unfold binds in *. rewrite flat_map_app, B. reflexivity.
Qed.
Lemma handle_map c f st : s_map (fst (handle c f st)) = add_all N.eqb (binds (snd (handle c f st))) (s_map st).
Proof.
  assert (L : forall s, s_map (fst (match lookup N.eqb s (s_map st) with
           | Some h => let '(st', es) := deliver h f st in (st', ODecoded f :: es)
           | None => (st, [ODecoded f])
           end)) = s_map st /\ binds (snd (match lookup N.eqb s (s_map st) with
           | Some h => let '(st', es) := deliver h f st in (st', ODecoded f :: es)
           | None => (st, [ODecoded f])
           end)) = []).
  { intros s. destruct (lookup N.eqb s (s_map st)) as [h|]; [|split; reflexivity].
    pose proof (deliver_map h f st) as D. destruct (deliver h f st) as [st' es]. exact D. }
  unfold handle. destruct f as [s d|s r|s d|s ms|u p]; try (destruct (s_verify st); reflexivity).
  - destruct (s_verify st); [|reflexivity]. cbn [negb]. destruct (L s) as [-> ->]. reflexivity.
  - destruct (s_verify st); [|reflexivity]. cbn [negb]. destruct (L s) as [-> ->]. reflexivity.
  - destruct (s_verify st); cbn [negb andb]; [reflexivity|]. destruct (check_succ c u p); reflexivity.
Qed.
Lemma step_map c st e : s_map (fst (step c st e)) = add_all N.eqb (binds (snd (step c st e))) (s_map st).
Proof.
  assert (T : s_map (fst (tunnel_closed st)) = add_all N.eqb (binds (snd (tunnel_closed st))) (s_map st))
    by (destruct (closed_map st) as [-> ->]; reflexivity).
  destruct e as [s v|s d|s r|h|h| | |b| |n| |]; cbn [step].
  - destruct (visit_domain (s_maps st) v); [|reflexivity]. destruct (_ <? _); reflexivity.
  - destruct (_ && _); reflexivity.
  - destruct (_ <? _); reflexivity.
  - destruct (s_box st h); [reflexivity|]. destruct (gone h st); reflexivity.
  - reflexivity.
  - destruct (s_phase st); try reflexivity. destruct (s_work st) as [|[[s d] h] w]; reflexivity.
  - destruct (s_phase st); try reflexivity. destruct (s_out st); reflexivity.
  - destruct (s_phase st); try reflexivity. destruct b; [exact T|reflexivity].
  - destruct (s_phase st); try reflexivity. exact T.
  - destruct (s_phase st); try reflexivity. destruct (s_wbuf st) eqn:E; [reflexivity|]. cbn zeta.
    destruct (s_wbuf (set_wbuf _ st)); [destruct (s_shut st)|]; reflexivity.
  - destruct (s_phase st); try reflexivity. destruct (s_wbuf st); reflexivity.
  - destruct (s_phase st) as [| |h f|r]; try reflexivity.
    + destruct (decode_frame (s_rbuf st)) as [|f rest|e rest|]; try reflexivity.
      change (s_map st) with (s_map (set_rbuf rest st)). apply handle_map.
    + destruct (deliver_map h f st) as [-> ->]. reflexivity.
Qed.
Lemma run_map c es : forall st st' tr, run c st es = (st', tr) -> s_map st' = add_all N.eqb (binds tr) (s_map st).
Proof.
  induction es as [|e es IH]; intros st st' tr H; cbn [run] in H.
  - injection H as <- <-. reflexivity.
  - pose proof (step_map c st e) as A. destruct (step c st e) as [st1 o1]. destruct (run c st1 es) as [st2 o2] eqn:E.
    injection H as <- <-. cbn [fst snd] in A. rewrite (IH _ _ _ E), A.
    unfold binds. rewrite flat_map_app. symmetry. apply add_all_app.
Qed.

(* ---- the client's end ------------------------------------------------------ *)
Definition kbinds (o : list keff) : list (N * N) :=
  flat_map (fun x => match x with QBind s h => [(s, h)] | _ => [] end) o.
Lemma in_kbinds o s h : In (s, h) (kbinds o) <-> In (QBind s h) o.
Proof.
  unfold kbinds. rewrite in_flat_map. split.
  - intros (x & H & X). destruct x; cbn in X; try contradiction. destruct X as [X|[]]. injection X as -> ->. exact H.
  - intros H. exists (QBind s h). split; [exact H|left; reflexivity].
Qed.
Lemma ksay_bye_map m : forall st, k_map (fst (ksay_bye m st)) = k_map st /\ kbinds (snd (ksay_bye m st)) = [].
Proof.
  induction m as [|[s h] m IH]; intros st; cbn [ksay_bye]; [split; reflexivity|].
  destruct (kgone h st || negb (nlen (k_box st h) <? handler_cap)); [apply IH|].
  specialize (IH (kset_box h (k_box st h ++ [FClose s []]) st)). destruct (ksay_bye m _) as [st' es]. exact IH.
Qed.
Lemma kclosed_map st : k_map (fst (ktunnel_closed st)) = k_map st /\ kbinds (snd (ktunnel_closed st)) = [].
Proof.
  unfold ktunnel_closed. destruct (ksay_bye_map (k_map st) st) as [A B]. destruct (ksay_bye (k_map st) st) as [st' es].
  cbn [fst snd] in *. split; [exact A|]. unfold kbinds in *. rewrite flat_map_app, B. reflexivity.
Qed.
Lemma ktry_map h f st : k_map (fst (ktry_send h f st)) = k_map st /\ kbinds (snd (ktry_send h f st)) = [].
Proof. unfold ktry_send. destruct (_ || _); split; reflexivity. Qed.
Lemma khandle_map f st : k_map (fst (khandle f st)) = add_all N.eqb (kbinds (snd (khandle f st))) (k_map st).
Proof.
  unfold khandle. destruct f as [s d|s r|s d|s ms|u p].
  - cbn zeta. destruct (choose (k_maps st) _) as [m|].
    + destruct (is_proxy m); [reflexivity|]. destruct (m_local m); reflexivity.
    + destruct (_ <? _); reflexivity.
  - destruct (lookup N.eqb s (k_map st)) as [h|]; destruct (s =? 0); try reflexivity.
    pose proof (ktry_map h (FClose s r) st) as [A B]. destruct (ktry_send h (FClose s r) st) as [st' es]. cbn [fst snd] in *.
    rewrite A. change (kbinds (QDecoded (FClose s r) :: es)) with (kbinds es). rewrite B. reflexivity.
  - destruct (lookup N.eqb s (k_map st)) as [h|]; [|reflexivity].
    pose proof (ktry_map h (FData s d) st) as [A B]. destruct (ktry_send h (FData s d) st) as [st' es]. cbn [fst snd] in *.
    rewrite A. change (kbinds (QDecoded (FData s d) :: es)) with (kbinds es). rewrite B. reflexivity.
  - reflexivity.
  - reflexivity.
Qed.
Lemma kstep_map st e : k_map (fst (kstep st e)) = add_all N.eqb (kbinds (snd (kstep st e))) (k_map st).
Proof.
  assert (T : k_map (fst (ktunnel_closed st)) = add_all N.eqb (kbinds (snd (ktunnel_closed st))) (k_map st))
    by (destruct (kclosed_map st) as [-> ->]; reflexivity).
  destruct e; cbn [kstep];
    repeat first [ reflexivity | exact T
      | match goal with
        | |- context [match ?x with _ => _ end] =>
          match x with
          | decode_frame _ => destruct x as [|f rest|e rest|] eqn:?; [reflexivity | change (k_map st) with (k_map (kset_rbuf rest st)); apply khandle_map | reflexivity | reflexivity]
          | k_phase _ => destruct x
          | k_box _ _ => destruct x
          | k_work _ => destruct x as [|[[? ?] ?] ?]
          | k_out _ => destruct x
          | k_wbuf _ => destruct x
          | lookup _ _ _ => destruct x
          | kgone _ _ => destruct x
          | _ <? _ => destruct x
          | _ => is_var x; destruct x
          end
        end ].
Qed.
Lemma krun_map es : forall st st' tr, krun st es = (st', tr) -> k_map st' = add_all N.eqb (kbinds tr) (k_map st).
Proof.
  induction es as [|e es IH]; intros st st' tr H; cbn [krun] in H.
  - injection H as <- <-. reflexivity.
  - pose proof (kstep_map st e) as A. destruct (kstep st e) as [st1 o1]. destruct (krun st1 es) as [st2 o2] eqn:E.
    injection H as <- <-. cbn [fst snd] in A. rewrite (IH _ _ _ E), A.
    unfold kbinds. rewrite flat_map_app. symmetry. apply add_all_app.
Qed.

(* ---- streams that come and go ---------------------------------------------- *)
Lemma close_fits s : wire_sock s -> fits (FClose s []).
Proof. intros H. split; [exact H|]. split; [exists []; repeat split; constructor|]. apply N.leb_le. reflexivity. Qed.
Lemma create_fits s : wire_sock s -> fits (FCreate s None).
Proof. intros H. split; [exact H|exact I]. Qed.
Lemma decode_empty : decode_frame [] = DWait.
Proof. reflexivity. Qed.
Lemma enc_nonempty f : fits f -> fst (encode f) <> [].
Proof. intros H E. destruct (roundtrip f [] H) as [_ D]. rewrite E in D. cbn [app] in D. rewrite decode_empty in D. discriminate. Qed.

Definition quiet (st : sst) : Prop :=
  s_phase st = PSelect /\ s_rbuf st = [] /\ s_verify st = true /\ s_shut st = false /\
  (forall h, s_next st <= h -> s_box st h = []) /\ (forall h, In h (s_gone st) -> h < s_next st).
Definition round (s h : N) : list ev :=
  [EvRead (fst (encode (FCreate s None)) ++ fst (encode (FClose s []))); EvDecode; EvDecode; EvDecode; EvConsume h; EvGone h].
Ltac sred := cbn [open_new CsModel.set_map set_rbuf set_phase set_box set_gone s_phase s_rbuf s_map s_box s_gone s_verify s_shut s_next].
Lemma round_run c st s : quiet st -> wire_sock s ->
  exists st' tr, run c st (round s (s_next st)) = (st', tr) /\ quiet st' /\
    s_map st' = insert N.eqb s (s_next st) (s_map st) /\ s_gone st' = s_next st :: s_gone st /\
    In (OBind s (s_next st)) tr /\ In (OGot (s_next st) (FClose s [])) tr.
Proof.
  intros (P & R & V & SH & BX & G) W. unfold round. cbn [run].
  destruct (roundtrip _ (fst (encode (FClose s []))) (create_fits s W)) as [_ D1].
  destruct (roundtrip _ [] (close_fits s W)) as [_ D2]. rewrite app_nil_r in D2.
  assert (NE : exists x y, fst (encode (FCreate s None)) ++ fst (encode (FClose s [])) = x :: y).
  { destruct (fst (encode (FCreate s None))) eqn:E; [destruct (enc_nonempty _ (create_fits s W) E)|]. eexists _, _. reflexivity. }
  destruct NE as (x & y & NE).
  set (e1 := fst (encode (FCreate s None)) ++ fst (encode (FClose s []))) in *.
  set (e2 := fst (encode (FClose s []))) in *. set (h := s_next st) in *.
  assert (G0 : existsb (N.eqb h) (s_gone st) = false).
  { destruct (existsb (N.eqb h) (s_gone st)) eqn:E; [|reflexivity]. apply existsb_exists in E as (z & I1 & I2).
    apply N.eqb_eq in I2 as <-. apply G in I1. unfold h in I1. lia. }
  cbn [step]. rewrite P, NE. rewrite <- NE. unfold after_select. sred. rewrite SH. sred. rewrite R. cbn [app]. rewrite D1. cbn [public].
  unfold handle at 1. sred. rewrite V. cbn [negb]. sred. rewrite D2. cbn [public]. unfold handle at 1. sred. rewrite V. cbn [negb].
  rewrite (lookup_insert_eq N.eqb N.eqb_eq). fold h. unfold deliver, gone. sred. rewrite G0, (BX h) by (unfold h; lia).
  change (nlen (@nil frame) <? handler_cap) with true. cbv iota. sred. rewrite decode_empty. sred. rewrite N.eqb_refl. cbn [app]. sred. rewrite G0.
  cbn [app]. eexists _, _. split; [reflexivity|]. split.
  - unfold quiet. sred. repeat split; try assumption; try reflexivity.
    + intros h' L. fold h in L. destruct (h' =? h); [reflexivity|]. apply BX. fold h. lia.
    + intros h' [<-|I1]; fold h; [lia|]. apply G in I1. fold h in I1. lia.
  - split; [reflexivity|]. split; [reflexivity|]. split; cbn; tauto.
Qed.
Lemma rounds c l : Forall wire_sock l -> NoDup l -> forall st tr0,
  quiet st -> (forall s, In s l -> ~ In s (map fst (s_map st))) ->
  exists es st' tr, run c st es = (st', tr) /\ quiet st' /\ map fst (s_map st') = map fst (s_map st) ++ l /\
    (forall h, In h (s_gone st) -> In h (s_gone st')) /\ Forall (over_at_server (tr0 ++ tr) st') l.
Proof.
  induction l as [|s l IH]; intros W ND st tr0 Q F.
  - exists [], st, []. cbn. rewrite app_nil_r. auto.
  - inversion W as [|? ? Ws Wl]; subst. inversion ND as [|? ? Ns Nl]; subst.
    destruct (round_run c st s Q Ws) as (st1 & tr1 & R1 & Q1 & M1 & G1 & B1 & B2).
    assert (K1 : map fst (s_map st1) = map fst (s_map st) ++ [s]).
    { rewrite M1, (kp_keys N.eqb N.eqb_eq). destruct (has N.eqb s (s_map st)) eqn:E; [|reflexivity].
      apply (kp_has N.eqb N.eqb_eq) in E. destruct (F s (or_introl eq_refl) E). }
    destruct (IH Wl Nl st1 (tr0 ++ tr1) Q1) as (es & st2 & tr2 & R2 & Q2 & M2 & G2 & O2).
    { intros x X Y. rewrite K1 in Y. apply in_app_iff in Y as [Y|[<-|[]]]; [exact (F x (or_intror X) Y)|exact (Ns X)]. }
    exists (round s (s_next st) ++ es), st2, (tr1 ++ tr2).
    split.
    { clear - R1 R2. revert R1. generalize (round s (s_next st)) as es1. intros es1. revert st tr1. induction es1 as [|e es1 IH]; intros st tr1 R1; cbn [run app] in *.
      - injection R1 as -> <-. exact R2.
      - destruct (step c st e) as [sa oa]. destruct (run c sa es1) as [sb ob] eqn:E. injection R1 as -> <-.
        rewrite (IH _ _ E). rewrite app_assoc. reflexivity. }
    split; [exact Q2|]. split; [rewrite M2, K1, <- app_assoc; reflexivity|].
    split; [intros h I1; apply G2; rewrite G1; right; exact I1|].
    rewrite app_assoc. constructor; [|exact O2].
    exists (s_next st), []. rewrite !in_app_iff. repeat split; auto. apply G2. rewrite G1. left. reflexivity.
Qed.

Definition kquiet (st : kst) : Prop :=
  k_phase st = KSelect /\ k_rbuf st = [] /\ k_work st = [] /\
  (forall h, k_next st <= h -> k_box st h = []) /\ (forall h, In h (k_gone st) -> h < k_next st).
Definition kround (s h : N) : list kev :=
  [KOpen s; KWork; KStep; KRead (fst (encode (FClose s []))); KStep; KStep; KConsume h; KGone h].
Ltac kred := cbn [kfresh kset_map kset_rbuf kset_wbuf kset_phase kset_box kset_gone kset_work k_phase k_rbuf k_map k_box k_gone k_work k_next].
Lemma kround_run st s : kquiet st -> wire_sock s -> s <> 0 ->
  exists st' tr, krun st (kround s (k_next st)) = (st', tr) /\ kquiet st' /\
    k_map st' = insert N.eqb s (k_next st) (k_map st) /\ k_gone st' = k_next st :: k_gone st /\
    In (QBind s (k_next st)) tr /\ In (QGot (k_next st) (FClose s [])) tr.
Proof.
  intros (P & R & WK & BX & G) W Z. unfold kround. cbn [krun].
  destruct (roundtrip _ [] (close_fits s W)) as [_ D2]. rewrite app_nil_r in D2.
  assert (NE : exists x y, fst (encode (FClose s [])) = x :: y).
  { destruct (fst (encode (FClose s []))) eqn:E; [destruct (enc_nonempty _ (close_fits s W) E)|]. eexists _, _. reflexivity. }
  destruct NE as (x & y & NE). set (h := k_next st) in *.
  assert (G0 : existsb (N.eqb h) (k_gone st) = false).
  { destruct (existsb (N.eqb h) (k_gone st)) eqn:E; [|reflexivity]. apply existsb_exists in E as (z & I1 & I2).
    apply N.eqb_eq in I2 as <-. apply G in I1. unfold h in I1. lia. }
  cbn [kstep]. rewrite WK. change (nlen (@nil (N * option key * N)) <? work_cap) with true. cbv iota.
  kred. cbn [app]. rewrite P. kred. rewrite R, decode_empty. kred. rewrite NE. rewrite <- NE. kred. rewrite ?R. cbn [app]. rewrite D2. cbn [public].
  unfold khandle. rewrite (proj2 (N.eqb_neq s 0) Z). kred. fold h. rewrite (lookup_insert_eq N.eqb N.eqb_eq).
  unfold ktry_send, kgone. kred. rewrite G0, (BX h) by (unfold h; lia).
  change (nlen (@nil frame) <? handler_cap) with true. cbn [orb negb app]. kred. rewrite decode_empty. kred. rewrite N.eqb_refl. kred. rewrite G0.
  cbn [app]. eexists _, _. split; [reflexivity|]. split.
  - unfold kquiet. kred. repeat split; try assumption; try reflexivity.
    + intros h' L. fold h in L. destruct (h' =? h); [reflexivity|]. apply BX. fold h. lia.
    + intros h' [<-|I1]; fold h; [lia|]. apply G in I1. fold h in I1. lia.
  - split; [reflexivity|]. split; [reflexivity|]. split; cbn; tauto.
Qed.
Lemma krounds l : Forall (fun s => wire_sock s /\ s <> 0) l -> NoDup l -> forall st tr0,
  kquiet st -> (forall s, In s l -> ~ In s (map fst (k_map st))) ->
  exists es st' tr, krun st es = (st', tr) /\ kquiet st' /\ map fst (k_map st') = map fst (k_map st) ++ l /\
    (forall h, In h (k_gone st) -> In h (k_gone st')) /\ Forall (over_at_client (tr0 ++ tr) st') l.
Proof.
  induction l as [|s l IH]; intros W ND st tr0 Q F.
  - exists [], st, []. cbn. rewrite app_nil_r. auto.
  - inversion W as [|? ? [Ws Wz] Wl]; subst. inversion ND as [|? ? Ns Nl]; subst.
    destruct (kround_run st s Q Ws Wz) as (st1 & tr1 & R1 & Q1 & M1 & G1 & B1 & B2).
    assert (K1 : map fst (k_map st1) = map fst (k_map st) ++ [s]).
    { rewrite M1, (kp_keys N.eqb N.eqb_eq). destruct (has N.eqb s (k_map st)) eqn:E; [|reflexivity].
      apply (kp_has N.eqb N.eqb_eq) in E. destruct (F s (or_introl eq_refl) E). }
    destruct (IH Wl Nl st1 (tr0 ++ tr1) Q1) as (es & st2 & tr2 & R2 & Q2 & M2 & G2 & O2).
    { intros x X Y. rewrite K1 in Y. apply in_app_iff in Y as [Y|[<-|[]]]; [exact (F x (or_intror X) Y)|exact (Ns X)]. }
    exists (kround s (k_next st) ++ es), st2, (tr1 ++ tr2).
    split.
    { clear - R1 R2. revert R1. generalize (kround s (k_next st)) as es1. intros es1. revert st tr1. induction es1 as [|e es1 IH]; intros st tr1 R1; cbn [krun app] in *.
      - injection R1 as -> <-. exact R2.
      - destruct (kstep st e) as [sa oa]. destruct (krun sa es1) as [sb ob] eqn:E. injection R1 as -> <-.
        rewrite (IH _ _ E). rewrite app_assoc. reflexivity. }
    split; [exact Q2|]. split; [rewrite M2, K1, <- app_assoc; reflexivity|].
    split; [intros h I1; apply G2; rewrite G1; right; exact I1|].
    rewrite app_assoc. constructor; [|exact O2].
    exists (k_next st), []. rewrite !in_app_iff. repeat split; auto. apply G2. rewrite G1. left. reflexivity.
Qed.

(* ---- records of addresses -------------------------------------------------- *)
Lemma hstep_keys h o : exists v m, c_map (hstep h o) = m /\ (m = c_map h /\ In (hop_addr o) (map fst (c_map h)) \/ m = insert leqb (hop_addr o) v (c_map h)).
Proof.
  destruct o as [a t|a t|a d t]; cbn [hstep hop_addr].
  - unfold add_fall_down. destruct (lookup leqb a (c_map h)); eexists _, _; (split; [reflexivity|right; reflexivity]).
  - unfold add_rise_up. destruct (lookup leqb a (c_map h)); eexists _, _; (split; [reflexivity|right; reflexivity]).
  - unfold check_can_request. destruct (lookup leqb a (c_map h)) as [v|] eqn:E; cbn [snd].
    + assert (I1 : In a (map fst (c_map h))) by (apply (kp_has leqb leqb_ok); unfold has; rewrite E; reflexivity).
      destruct (match h_request v with Some _ => _ | None => _ end); [exists (HRec (Some t) (h_record v) (h_timeout v) (h_fall v) (h_rise v) (h_failed v))|exists v]; eexists; (split; [reflexivity|]); auto.
    + eexists _, _; (split; [reflexivity|right; reflexivity]).
Qed.
Lemma hrun_keys os : forall h, NoDup (map fst (c_map h)) ->
  NoDup (map fst (c_map (hrun h os))) /\
  forall a, In a (map fst (c_map (hrun h os))) <-> In a (map hop_addr os) \/ In a (map fst (c_map h)).
Proof.
  induction os as [|o os IH]; intros h ND; cbn [hrun fold_left map In]; [split; [exact ND|tauto]|].
  fold (hrun (hstep h o) os). destruct (hstep_keys h o) as (v & m & E & X).
  destruct (IH (hstep h o)) as [A B].
  - rewrite E. destruct X as [[-> _]| ->]; [exact ND|]. apply (kp_nodup leqb leqb_ok), ND.
  - split; [exact A|]. intros a. rewrite B, E. destruct X as [[-> I1]| ->].
    + split; [tauto|]. intros [[<-|H]|H]; auto.
    + rewrite (kp_in leqb leqb_ok). intuition congruence.
Qed.

(* ---- clients of a rate limit ------------------------------------------------ *)
Lemma filter_shorter {A} (p : A -> bool) l : (length (filter p l) <= length l)%nat.
Proof. induction l as [|x l IH]; cbn [filter length]; [lia|]. destruct (p x); cbn [length]; lia. Qed.
Lemma zone_bound_step a burst t1 t2 z : nlen (z_ips z) <= z_limit z ->
  nlen (z_ips (snd (inner_recv a burst t1 t2 z))) <= z_limit (snd (inner_recv a burst t1 t2 z)) /\
  z_limit (snd (inner_recv a burst t1 t2 z)) = z_limit z.
Proof.
  intros H. assert (R : nlen (z_ips (try_remove_unuse t1 z)) <= z_limit z /\ z_limit (try_remove_unuse t1 z) = z_limit z).
  { unfold try_remove_unuse. destruct (_ <? _); [auto|]. destruct (_ <? _); [auto|]. cbn [z_ips z_limit]. split; [|reflexivity].
    unfold nlen in *. pose proof (filter_shorter (fun kv => negb (50 * z_per z <? t1 - i_last (snd kv))) (z_ips z)). lia. }
  destruct R as [R1 R2]. unfold inner_recv. destruct (_ <=? _) eqn:E; [cbn [snd]; rewrite R2; auto|].
  apply N.leb_gt in E. rewrite R2 in E. set (w := try_remove_unuse t1 z) in *.
  assert (I1 : forall v, nlen (insert leqb a v (z_ips w)) <= nlen (z_ips w) + 1).
  { intros v. unfold nlen. pose proof (f_equal (@length _) (kp_keys leqb leqb_ok a v (z_ips w))) as K.
    rewrite map_length in K. rewrite K. destruct (has leqb a (z_ips w)); rewrite ?app_length, map_length; cbn [length]; unfold ip in *; lia. }
  destruct (lookup leqb a (z_ips w)); cbn [snd z_ips z_limit]; (split; [|exact R2]); rewrite R2; (eapply N.le_trans; [apply I1|lia]).
Qed.
Lemma zone_bound rs : forall z, nlen (z_ips z) <= z_limit z ->
  nlen (z_ips (fst (zrun z rs))) <= z_limit z.
Proof.
  induction rs as [|q rs IH]; intros z H; cbn [zrun]; [exact H|].
  destruct (zone_bound_step (q_ip q) (q_burst q) (q_now1 q) (q_now2 q) z H) as [A B].
  destruct (inner_recv _ _ _ _ z) as [[full v] z1]. cbn [snd] in *. specialize (IH z1 A). destruct (zrun z1 rs) as [z2 tr].
  cbn [fst] in *. rewrite B in IH. exact IH.
Qed.
