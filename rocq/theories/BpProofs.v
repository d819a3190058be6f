From Verif Require Import Base Text ProtModel ProtSpec ProtProofs ProtRobust CsModel CcModel VsModel KpProofs BpSpec.
Open Scope N_scope.

(* ---- the queues of the server's end ---------------------------------------- *)
Definition short (st : sst) : Prop :=
  nlen (s_work st) <= work_cap /\ nlen (s_out st) <= out_cap /\ (forall h, nlen (s_box st h) <= handler_cap).
Lemma nlen_snoc {A} (l : list A) x : nlen (l ++ [x]) = nlen l + 1.
Proof. unfold nlen. rewrite app_length. cbn [length]. lia. Qed.
Lemma nlen_cons' {A} (l : list A) x : nlen (x :: l) = nlen l + 1.
Proof. unfold nlen. cbn [length]. lia. Qed.
Lemma short_box st h q : short st -> nlen q <= handler_cap -> short (set_box h q st).
Proof. intros (A & B & C) H. split; [exact A|]. split; [exact B|]. intros x. cbn [set_box s_box]. destruct (x =? h); [exact H|apply C]. Qed.
Lemma say_bye_short m : forall st, short st -> short (fst (say_bye m st)).
Proof.
  induction m as [|[s h] m IH]; intros st H; cbn [say_bye]; [exact H|].
  destruct (gone h st || negb (nlen (s_box st h) <? handler_cap)) eqn:E; [apply IH, H|].
  apply orb_false_iff in E as [_ E]. apply negb_false_iff, N.ltb_lt in E.
  assert (X : short (set_box h (s_box st h ++ [FClose s []]) st)) by (apply short_box; [exact H|rewrite nlen_snoc; lia]).
  specialize (IH _ X). destruct (say_bye m _) as [st' es]. exact IH.
Qed.
Lemma closed_short st : short st -> short (fst (tunnel_closed st)).
Proof. intros H. unfold tunnel_closed. pose proof (say_bye_short (s_map st) st H) as X. destruct (say_bye (s_map st) st). exact X. Qed.
Lemma deliver_short h f st : short st -> short (fst (deliver h f st)).
Proof.
  intros H. unfold deliver. destruct (gone h st); [exact H|]. destruct (_ <? _) eqn:E; [|exact H]. apply N.ltb_lt in E.
  cbn [fst]. change (short (set_box h (s_box st h ++ [f]) st)). apply short_box; [exact H|rewrite nlen_snoc; lia].
Qed.
Lemma handle_short c f st : short st -> short (fst (handle c f st)).
Proof.
  intros H. unfold handle.
  destruct f as [s d|s r|s d|s ms|u p].
  - destruct (negb (s_verify st)); exact H.
  - destruct (negb (s_verify st)); [exact H|]. destruct (lookup N.eqb s (s_map st)) as [h|]; [|exact H].
    pose proof (deliver_short h (FClose s r) st H) as X. destruct (deliver h (FClose s r) st). exact X.
  - destruct (negb (s_verify st)); [exact H|]. destruct (lookup N.eqb s (s_map st)) as [h|]; [|exact H].
    pose proof (deliver_short h (FData s d) st H) as X. destruct (deliver h (FData s d) st). exact X.
  - destruct (negb (s_verify st)); exact H.
  - destruct (_ && _); [exact H|]. destruct (negb _); exact H.
Qed.
Lemma step_short c st e : short st -> short (fst (step c st e)).
Proof.
  intros H. pose proof H as (A & B & C). destruct e as [s v|s d|s r|h|h| | |b| |n| |]; cbn [step].
  - destruct (visit_domain (s_maps st) v); [|exact H]. destruct (_ <? _) eqn:E; [|exact H]. apply N.ltb_lt in E.
    cbn [fst]. unfold short. cbn [open_new set_work s_work s_out s_box]. rewrite nlen_snoc. repeat split; auto. lia.
  - destruct (_ && _) eqn:E; [|exact H]. apply andb_prop in E as [_ E]. apply N.ltb_lt in E. cbn [fst].
    unfold short. cbn [set_out s_work s_out s_box]. rewrite nlen_snoc. repeat split; auto. lia.
  - destruct (_ <? _) eqn:E; [|exact H]. apply N.ltb_lt in E. cbn [fst].
    unfold short. cbn [set_out s_work s_out s_box]. rewrite nlen_snoc. repeat split; auto. lia.
  - destruct (s_box st h) as [|f q] eqn:E; [exact H|]. destruct (gone h st); [exact H|]. cbn [fst]. apply short_box; [exact H|].
    specialize (C h). rewrite E, nlen_cons' in C. lia.
  - exact H.
  - destruct (s_phase st); try exact H. destruct (s_work st) as [|[[s d] h] w] eqn:E; [exact H|]. rewrite nlen_cons' in A.
    unfold short, after_select. cbn [fst set_phase set_wbuf set_map set_work s_work s_out s_box]. repeat split; auto. lia.
  - destruct (s_phase st); try exact H. destruct (s_out st) as [|f o] eqn:E; [exact H|]. rewrite nlen_cons' in B.
    unfold short, after_select. cbn [fst set_phase set_wbuf set_out s_work s_out s_box]. repeat split; auto. lia.
  - destruct (s_phase st); try exact H. destruct b; [apply closed_short, H|exact H].
  - destruct (s_phase st); try exact H. apply closed_short, H.
  - destruct (s_phase st); try exact H. destruct (s_wbuf st); [exact H|]. cbn zeta. destruct (s_wbuf (set_wbuf _ st)); [destruct (s_shut st)|]; exact H.
  - destruct (s_phase st); try exact H. destruct (s_wbuf st); exact H.
  - destruct (s_phase st) as [| |h f|r]; try exact H; [|apply deliver_short, H].
    destruct (decode_frame (s_rbuf st)); try exact H. apply handle_short. exact H.
Qed.
Lemma run_short c es : forall st, short st -> short (fst (run c st es)).
Proof.
  induction es as [|e es IH]; intros st H; [exact H|]. cbn [run]. pose proof (step_short c st e H) as X.
  destruct (step c st e) as [st1 o1]. specialize (IH st1 X). destruct (run c st1 es) as [st2 o2]. exact IH.
Qed.

(* ---- the bytes that are read but not yet a frame ---------------------------- *)
Lemma wait_short b : bytes_ok b = true -> decode_frame b = DWait -> nlen b < frame_room.
Proof.
  intros Hb Hw. apply decode_frame_wait in Hw. unfold frame_room. change (2 ^ 24) with 16777216. destruct b as [|x [|y [|z b]]]; cbn [announced] in Hw; [unfold nlen; cbn; lia..|].
  unfold bytes_ok, byte_ok in Hb. cbn [forallb] in Hb. rewrite !andb_true_iff, !N.ltb_lt in Hb. destruct Hb as (X & Y & Z & _). lia.
Qed.
Lemma bytes_skip n : forall b, bytes_ok b = true -> bytes_ok (skipn n b) = true.
Proof.
  induction n as [|n IH]; intros b H; [exact H|]. destruct b as [|x b]; [reflexivity|]. cbn [skipn]. apply IH.
  unfold bytes_ok in *. cbn [forallb] in H. apply andb_prop in H as [_ H]. exact H.
Qed.
Lemma decode_part b : bytes_ok b = true ->
  match decode_frame b with DFrame _ r | DFail _ r => bytes_ok r = true /\ nlen r <= nlen b | _ => True end.
Proof.
  intros H. assert (G : forall n, announced b = Some n -> n <= nlen b -> bytes_ok (skipn (N.to_nat n) b) = true /\ nlen (skipn (N.to_nat n) b) <= nlen b).
  { intros n _ _. split; [apply bytes_skip, H|]. unfold nlen. rewrite skipn_length. lia. }
  destruct (announced b) as [n|] eqn:A.
  2:{ assert (decode_frame b = DWait) as -> by (apply decode_frame_wait; rewrite A; exact I). exact I. }
  destruct (N.ltb_spec (nlen b) n) as [L|L].
  { assert (decode_frame b = DWait) as -> by (apply decode_frame_wait; rewrite A; exact L). exact I. }
  destruct (decode_frame_rest b n A L) as [->|[[f ->]|[e ->]]]; auto.
Qed.
Definition small (m : N) (st : sst) : Prop :=
  s_shut st = false -> bytes_ok (s_rbuf st) = true /\ nlen (s_rbuf st) < frame_room + m /\ (s_phase st = PSelect -> nlen (s_rbuf st) < frame_room).
Lemma deliver_small m h f st : s_shut st = false -> bytes_ok (s_rbuf st) = true -> nlen (s_rbuf st) < frame_room + m ->
  small m (fst (deliver h f st)).
Proof.
  intros S0 A B. unfold deliver. destruct (gone h st); [|destruct (_ <? _)]; intros _; cbn [fst set_phase set_box s_rbuf s_phase]; repeat split; auto; discriminate.
Qed.
Lemma handle_small m c f st : s_phase st = PDecode -> s_shut st = false -> bytes_ok (s_rbuf st) = true -> nlen (s_rbuf st) < frame_room + m ->
  small m (fst (handle c f st)).
Proof.
  intros P S0 A B. assert (H : small m st) by (intros _; repeat split; auto; congruence).
  unfold handle. destruct f as [s d|s r|s d|s ms|u p].
  - destruct (negb (s_verify st)); [intros X; discriminate|]. intros _. cbn [fst open_new set_map s_rbuf s_phase]. repeat split; auto. congruence.
  - destruct (negb (s_verify st)); [intros X; discriminate|]. destruct (lookup N.eqb s (s_map st)) as [h|]; [|exact H].
    pose proof (deliver_small m h (FClose s r) st S0 A B) as X. destruct (deliver h (FClose s r) st). exact X.
  - destruct (negb (s_verify st)); [intros X; discriminate|]. destruct (lookup N.eqb s (s_map st)) as [h|]; [|exact H].
    pose proof (deliver_small m h (FData s d) st S0 A B) as X. destruct (deliver h (FData s d) st). exact X.
  - destruct (negb (s_verify st)); [intros X; discriminate|exact H].
  - destruct (_ && _); [exact H|]. destruct (negb _); [intros X; discriminate|exact H].
Qed.
Lemma bye_keeps l : forall st, s_shut (fst (say_bye l st)) = s_shut st /\ s_rbuf (fst (say_bye l st)) = s_rbuf st.
Proof.
  induction l as [|[s h] l IH]; intros st; cbn [say_bye]; [split; reflexivity|].
  destruct (gone h st || negb (nlen (s_box st h) <? handler_cap)); [apply IH|].
  specialize (IH (set_box h (s_box st h ++ [FClose s []]) st)). destruct (say_bye l _) as [st' es]. exact IH.
Qed.
Lemma step_small m c st e : reads_bytes m e -> small m st -> small m (fst (step c st e)).
Proof.
  intros RB H.
  assert (T : small m (fst (tunnel_closed st))).
  { unfold tunnel_closed. destruct (bye_keeps (s_map st) st) as [A B]. destruct (say_bye (s_map st) st) as [st' es]. cbn [fst] in *.
    unfold small. cbn [set_phase s_shut s_rbuf s_phase]. rewrite A, B. intros X. destruct (H X) as (P & Q & _). repeat split; auto. discriminate. }
  assert (AS : forall st', s_shut st' = s_shut st -> s_rbuf st' = s_rbuf st -> small m (after_select st')).
  { intros st' A B. unfold small, after_select. cbn [set_phase s_shut s_rbuf s_phase]. rewrite A, B. intros X. rewrite X. destruct (H X) as (P & Q & _). repeat split; auto. discriminate. }
  destruct e as [s v|s d|s r|h|h| | |b| |n| |]; cbn [step].
  - destruct (visit_domain (s_maps st) v); [|exact H]. destruct (_ <? _); exact H.
  - destruct (_ && _); exact H.
  - destruct (_ <? _); exact H.
  - destruct (s_box st h); [exact H|]. destruct (gone h st); exact H.
  - exact H.
  - destruct (s_phase st); try exact H. destruct (s_work st) as [|[[s d] h] w]; [exact H|]. apply AS; reflexivity.
  - destruct (s_phase st); try exact H. destruct (s_out st); [exact H|]. apply AS; reflexivity.
  - destruct (s_phase st) eqn:P; try exact H. destruct b as [|x b]; [exact T|]. destruct RB as [RB1 RB2].
    unfold small, after_select. cbn [fst set_phase set_rbuf s_shut s_rbuf s_phase]. intros X. rewrite X. destruct (H X) as (A & _ & C). specialize (C P).
    rewrite bytes_ok_app, A, RB1. split; [reflexivity|]. split; [unfold nlen in *; rewrite app_length; lia|discriminate].
  - destruct (s_phase st); try exact H. exact T.
  - destruct (s_phase st) eqn:P; try exact H. destruct (s_wbuf st); [exact H|]. cbn zeta. destruct (s_wbuf (set_wbuf _ st)); [destruct (s_shut st) eqn:X|]; [|cbn [fst]; apply AS; cbn; auto..].
    intros Y. cbn [fst set_phase set_wbuf s_shut] in Y. congruence.
  - destruct (s_phase st) eqn:P; try exact H. destruct (s_wbuf st); [exact H|]. intros X. destruct (H X) as (A & B & _). repeat split; auto. discriminate.
  - destruct (s_phase st) as [| |h f|r] eqn:P; try exact H.
    + destruct (s_shut st) eqn:X.
      { (* a loop that is shutting down is not in the decode loop; nothing is claimed of it *)
        destruct (decode_frame (s_rbuf st)) as [|f rest|e rest|]; intros Y; try (cbn [fst set_phase set_rbuf s_shut] in Y; congruence).
        exfalso. revert Y. unfold handle. destruct f as [s d|s r|s d|s ms|u p].
        - destruct (negb _); cbn [fst open_new set_map set_phase set_shut set_rbuf set_wbuf s_shut]; congruence.
        - destruct (negb _); cbn [fst set_phase set_shut set_rbuf set_wbuf s_shut]; [congruence|]. destruct (lookup N.eqb s _) as [h|]; [|cbn [fst set_rbuf s_shut]; congruence].
          unfold deliver. destruct (gone h _); [|destruct (_ <? _)]; cbn [fst set_phase set_box set_rbuf s_shut]; congruence.
        - destruct (negb _); cbn [fst set_phase set_shut set_rbuf set_wbuf s_shut]; [congruence|]. destruct (lookup N.eqb s _) as [h|]; [|cbn [fst set_rbuf s_shut]; congruence].
          unfold deliver. destruct (gone h _); [|destruct (_ <? _)]; cbn [fst set_phase set_box set_rbuf s_shut]; congruence.
        - destruct (negb _); cbn [fst set_maps set_phase set_shut set_rbuf set_wbuf s_shut]; congruence.
        - destruct (_ && _); [cbn [fst set_verify set_rbuf s_shut]; congruence|]. destruct (negb _); cbn [fst set_phase set_shut set_rbuf set_wbuf s_shut]; congruence. }
      destruct (H X) as (A & B & C). pose proof (decode_part (s_rbuf st) A) as D. destruct (decode_frame (s_rbuf st)) as [|f rest|e rest|] eqn:E.
      * intros _. cbn [fst set_phase s_rbuf s_phase]. repeat split; auto. intros _. apply wait_short; auto.
      * destruct D as [D1 D2]. apply handle_small; [exact P|exact X|exact D1|cbn [set_rbuf s_rbuf]; lia].
      * destruct D as [D1 D2]. intros _. cbn [fst set_phase set_rbuf s_rbuf s_phase]. repeat split; auto; [lia|discriminate].
      * intros _. cbn [fst set_phase s_rbuf s_phase]. repeat split; auto. discriminate.
    + destruct (s_shut st) eqn:X.
      * intros Y. exfalso. revert Y. unfold deliver. destruct (gone h st); [|destruct (_ <? _)]; cbn [fst set_phase set_box s_shut]; congruence.
      * destruct (H X) as (A & B & _). apply deliver_small; auto.
Qed.
Lemma run_small m c es : Forall (reads_bytes m) es -> forall st, small m st -> small m (fst (run c st es)).
Proof.
  induction 1 as [|e es E _ IH]; intros st H; [exact H|]. cbn [run]. pose proof (step_small m c st e E H) as X.
  destruct (step c st e) as [st1 o1]. specialize (IH st1 X). destruct (run c st1 es) as [st2 o2]. exact IH.
Qed.

(* ---- the client's end -------------------------------------------------------- *)
Definition kshort (st : kst) : Prop :=
  nlen (k_work st) <= work_cap /\ nlen (k_out st) <= out_cap /\ (forall h, nlen (k_box st h) <= handler_cap).
Definition ksmall (m : N) (st : kst) : Prop :=
  bytes_ok (k_rbuf st) = true /\ nlen (k_rbuf st) < frame_room + m /\ (k_phase st = KSelect -> nlen (k_rbuf st) < frame_room).
Definition kfine m st := kshort st /\ ksmall m st.
Lemma kshort_box st h q : kshort st -> nlen q <= handler_cap -> kshort (kset_box h q st).
Proof. intros (A & B & C) H. split; [exact A|]. split; [exact B|]. intros x. cbn [kset_box k_box]. destruct (x =? h); [exact H|apply C]. Qed.
Lemma kbye_fine m : forall st, kshort st -> kshort (fst (ksay_bye m st)) /\ k_rbuf (fst (ksay_bye m st)) = k_rbuf st.
Proof.
  induction m as [|[s h] m IH]; intros st H; cbn [ksay_bye]; [auto|].
  destruct (kgone h st || negb (nlen (k_box st h) <? handler_cap)) eqn:E; [apply IH, H|].
  apply orb_false_iff in E as [_ E]. apply negb_false_iff, N.ltb_lt in E.
  assert (X : kshort (kset_box h (k_box st h ++ [FClose s []]) st)) by (apply kshort_box; [exact H|rewrite nlen_snoc; lia]).
  specialize (IH _ X). destruct (ksay_bye m _) as [st' es]. exact IH.
Qed.
Lemma kout_fine f st : kshort st -> (nlen (k_out st) <? out_cap) = true -> kshort (kset_out (k_out st ++ [f]) st).
Proof. intros (A & B & C) E. apply N.ltb_lt in E. unfold kshort. cbn [kset_out k_work k_out k_box]. rewrite nlen_snoc. repeat split; auto. lia. Qed.
Lemma ktry_fine h f st : kshort st -> kshort (fst (ktry_send h f st)) /\ k_rbuf (fst (ktry_send h f st)) = k_rbuf st /\ k_phase (fst (ktry_send h f st)) = k_phase st.
Proof.
  intros H. unfold ktry_send. destruct (_ || _) eqn:E; [auto|]. apply orb_false_iff in E as [_ E]. apply negb_false_iff, N.ltb_lt in E.
  cbn [fst]. split; [apply kshort_box; [exact H|rewrite nlen_snoc; lia]|split; reflexivity].
Qed.
Lemma khandle_fine f st : kshort st -> k_phase st <> KSelect ->
  kshort (fst (khandle f st)) /\ k_rbuf (fst (khandle f st)) = k_rbuf st /\ k_phase (fst (khandle f st)) <> KSelect.
Proof.
  intros H P. assert (L : forall s g, kshort (fst (match lookup N.eqb s (k_map st) with
           | Some h => let '(st', es) := ktry_send h g st in (st', QDecoded g :: es) | None => (st, [QDecoded g]) end)) /\
      k_rbuf (fst (match lookup N.eqb s (k_map st) with
           | Some h => let '(st', es) := ktry_send h g st in (st', QDecoded g :: es) | None => (st, [QDecoded g]) end)) = k_rbuf st /\
      k_phase (fst (match lookup N.eqb s (k_map st) with
           | Some h => let '(st', es) := ktry_send h g st in (st', QDecoded g :: es) | None => (st, [QDecoded g]) end)) <> KSelect).
  { intros s g. destruct (lookup N.eqb s (k_map st)) as [h|]; [|auto]. destruct (ktry_fine h g st H) as (A & B & C).
    destruct (ktry_send h g st) as [st' es]. cbn [fst] in *. rewrite C. auto. }
  unfold khandle. destruct f as [s d|s r|s d|s ms|u p].
  - cbn zeta. destruct (choose (k_maps st) _) as [mp|].
    + destruct (is_proxy mp); [auto|]. destruct (m_local mp); auto.
    + destruct (_ <? _) eqn:E; [cbn [fst]; split; [apply kout_fine; auto|split; [reflexivity|exact P]]|split; [exact H|split; [reflexivity|discriminate]]].
  - destruct (s =? 0); [auto|apply L].
  - apply L.
  - auto.
  - split; [exact H|split; [reflexivity|discriminate]].
Qed.
Lemma kstep_fine m st e : kreads_bytes m e -> kfine m st -> kfine m (fst (kstep st e)).
Proof.
  intros RB [H Q]. pose proof H as (A & B & C). pose proof Q as (Q1 & Q2 & Q3).
  assert (T : kfine m (fst (ktunnel_closed st))).
  { unfold ktunnel_closed. destruct (kbye_fine (k_map st) st H) as [X Y]. destruct (ksay_bye (k_map st) st) as [st' es]. cbn [fst] in *.
    split; [exact X|]. unfold ksmall. cbn [kset_phase k_rbuf k_phase]. rewrite Y. repeat split; auto. discriminate. }
  assert (D : forall st', kshort st' -> k_rbuf st' = k_rbuf st -> kfine m (kset_phase KDecode st')).
  { intros st' X Y. split; [exact X|]. unfold ksmall. cbn [kset_phase k_rbuf k_phase]. rewrite Y. repeat split; auto. discriminate. }
  assert (O : forall f, (nlen (k_out st) <? out_cap) = true -> kfine m (kset_out (k_out st ++ [f]) st)).
  { intros f E. split; [apply kout_fine; auto|exact Q]. }
  destruct e; cbn [kstep].
  - destruct (nlen (k_work st) <? work_cap) eqn:E; [|exact (conj H Q)]. apply N.ltb_lt in E. split; [|exact Q]. unfold kshort. cbn [fst kfresh kset_work k_work k_out k_box].
    rewrite nlen_snoc. repeat split; auto. lia.
  - destruct (nlen (k_out st) <? out_cap) eqn:E; [|exact (conj H Q)]. apply O; reflexivity.
  - destruct (nlen (k_out st) <? out_cap) eqn:E; [|exact (conj H Q)]. apply O; reflexivity.
  - destruct (k_box st h) as [|f q] eqn:E; [exact (conj H Q)|]. destruct (kgone h st); [exact (conj H Q)|]. split; [|exact Q].
    apply kshort_box; [exact H|]. specialize (C h). rewrite E, nlen_cons' in C. lia.
  - exact (conj H Q).
  - destruct (lookup N.eqb h (k_conn st)) as [s|]; [|exact (conj H Q)]. destruct (nlen (k_out st) <? out_cap) eqn:E; [|exact (conj H Q)].
    split; [|exact Q]. cbn [fst]. apply (kout_fine (FClose s []) (kset_gone (h :: k_gone st) (kset_conn (remove N.eqb h (k_conn st)) st))); [exact H|exact E].
  - destruct (k_phase st); try (exact (conj H Q)). destruct (k_work st) as [|[[s d] h] w] eqn:E; [exact (conj H Q)|]. apply D; [|reflexivity].
    rewrite nlen_cons' in A. unfold kshort. cbn [kset_wbuf kset_map kset_work k_work k_out k_box]. repeat split; auto. lia.
  - destruct (k_phase st); try (exact (conj H Q)). destruct (k_out st) as [|f o] eqn:E; [exact (conj H Q)|]. apply D; [|reflexivity].
    rewrite nlen_cons' in B. unfold kshort. cbn [kset_wbuf kset_out k_work k_out k_box]. repeat split; auto. lia.
  - destruct (k_phase st) eqn:P; try (exact (conj H Q)). destruct b as [|x b]; [exact T|]. destruct RB as [R1 R2]. specialize (Q3 eq_refl).
    split; [exact H|]. unfold ksmall. cbn [fst kset_phase kset_rbuf k_rbuf k_phase]. rewrite bytes_ok_app, Q1, R1.
    split; [reflexivity|]. split; [unfold nlen in *; rewrite app_length; lia|discriminate].
  - destruct (k_phase st); try (exact (conj H Q)). exact T.
  - destruct (k_phase st); try (exact (conj H Q)). destruct (k_wbuf st); [exact (conj H Q)|]. apply D; [exact H|reflexivity].
  - destruct (k_phase st); try (exact (conj H Q)). destruct (k_wbuf st); [exact (conj H Q)|]. apply D; [exact H|reflexivity].
  - destruct (k_phase st) as [| |f|r] eqn:P; try (exact (conj H Q)).
    + pose proof (decode_part (k_rbuf st) Q1) as DP. destruct (decode_frame (k_rbuf st)) as [|f rest|e rest|] eqn:E.
      * split; [exact H|]. unfold ksmall. cbn [fst kset_phase k_rbuf k_phase]. repeat split; auto. intros _. apply wait_short; auto.
      * destruct DP as [D1 D2]. destruct (khandle_fine f (kset_rbuf rest st)) as (X & Y & Z); [exact H|cbn [kset_rbuf k_phase]; congruence|].
        split; [exact X|]. unfold ksmall. rewrite Y. cbn [kset_rbuf k_rbuf]. split; [exact D1|]. split; [lia|]. intros W. contradiction.
      * destruct DP as [D1 D2]. split; [exact H|]. unfold ksmall. cbn [fst kset_phase kset_rbuf k_rbuf k_phase]. split; [exact D1|]. split; [lia|discriminate].
      * split; [exact H|]. unfold ksmall. cbn [fst kset_phase k_rbuf k_phase]. repeat split; auto. discriminate.
    + destruct (nlen (k_out st) <? out_cap) eqn:E; [|exact (conj H Q)]. apply D; [apply kout_fine; auto|reflexivity].
Qed.
Lemma krun_fine m es : Forall (kreads_bytes m) es -> forall st, kfine m st -> kfine m (fst (krun st es)).
Proof.
  induction 1 as [|e es E _ IH]; intros st H; [exact H|]. cbn [krun]. pose proof (kstep_fine m st e E H) as X.
  destruct (kstep st e) as [st1 o1]. specialize (IH st1 X). destruct (krun st1 es) as [st2 o2]. exact IH.
Qed.

(* ---- what grows ---------------------------------------------------------------- *)
Lemma run_app c es1 : forall es2 st st1 tr1 st2 tr2, run c st es1 = (st1, tr1) -> run c st1 es2 = (st2, tr2) -> run c st (es1 ++ es2) = (st2, tr1 ++ tr2).
Proof.
  induction es1 as [|e es1 IH]; intros es2 st st1 tr1 st2 tr2 H1 H2; cbn [run app] in *.
  - injection H1 as <- <-. exact H2.
  - destruct (step c st e) as [sa oa]. destruct (run c sa es1) as [sb ob] eqn:E. injection H1 as <- <-.
    rewrite (IH _ _ _ _ _ _ E H2). rewrite app_assoc. reflexivity.
Qed.
Definition ready (s : N) (st : sst) : Prop :=
  s_phase st = PSelect /\ s_rbuf st = [] /\ s_shut st = false /\ s_out st = [] /\ is_open s st = true.
Lemma data_grows c s ds : forall st, ready s st ->
  exists st', run c st (flat_map (fun d => [EvData s d; EvOut; EvDecode]) ds) = (st', []) /\ ready s st' /\
    s_wbuf st' = s_wbuf st ++ wire (map (FData s) ds).
Proof.
  induction ds as [|d ds IH]; intros st R.
  - exists st. cbn. rewrite app_nil_r. auto.
  - pose proof R as (P & RB & SH & OU & OP).
    set (st1 := set_phase PSelect (set_phase PDecode (set_wbuf (s_wbuf st ++ fst (encode (FData s d))) (set_out [] (set_out [FData s d] st))))).
    assert (E : run c st [EvData s d; EvOut; EvDecode] = (st1, [])).
    { cbn [run step]. rewrite OP, OU. change (nlen (@nil frame) <? out_cap) with true. cbn [andb app].
      cbn [set_out s_phase s_out]. rewrite P. unfold after_select. cbn [set_wbuf set_out s_shut]. rewrite SH. cbn [set_phase set_wbuf set_out s_phase s_rbuf]. rewrite RB. rewrite decode_empty. reflexivity. }
    destruct (IH st1) as (st2 & E2 & R2 & W2).
    { unfold st1, ready. cbn [set_phase set_wbuf set_out s_phase s_rbuf s_shut s_out]. repeat split; auto. }
    exists st2. cbn [flat_map]. split; [exact (run_app c _ _ st st1 [] st2 [] E E2)|]. split; [exact R2|].
    rewrite W2. unfold st1. cbn [set_phase set_wbuf s_wbuf map wire flat_map]. unfold wire. cbn [flat_map]. rewrite app_assoc. reflexivity.
Qed.
Lemma krun_app es1 : forall es2 st st1 tr1 st2 tr2, krun st es1 = (st1, tr1) -> krun st1 es2 = (st2, tr2) -> krun st (es1 ++ es2) = (st2, tr1 ++ tr2).
Proof.
  induction es1 as [|e es1 IH]; intros es2 st st1 tr1 st2 tr2 H1 H2; cbn [krun app] in *.
  - injection H1 as <- <-. exact H2.
  - destruct (kstep st e) as [sa oa]. destruct (krun sa es1) as [sb ob] eqn:E. injection H1 as <- <-.
    rewrite (IH _ _ _ _ _ _ E H2). rewrite app_assoc. reflexivity.
Qed.
Definition kready (st : kst) : Prop := k_phase st = KSelect /\ k_rbuf st = [] /\ k_out st = [].
Lemma kdata_grows s ds : forall st, kready st ->
  exists st', krun st (flat_map (fun d => [KData s d; KOut; KStep]) ds) = (st', []) /\ kready st' /\
    k_wbuf st' = k_wbuf st ++ wire (map (FData s) ds).
Proof.
  induction ds as [|d ds IH]; intros st R.
  - exists st. cbn. rewrite app_nil_r. auto.
  - pose proof R as (P & RB & OU).
    set (st1 := kset_phase KSelect (kset_phase KDecode (kset_wbuf (k_wbuf st ++ fst (encode (FData s d))) (kset_out [] (kset_out [FData s d] st))))).
    assert (E : krun st [KData s d; KOut; KStep] = (st1, [])).
    { cbn [krun kstep]. rewrite OU. change (nlen (@nil frame) <? out_cap) with true. cbv iota. cbn [app].
      cbn [kset_out k_phase k_out]. rewrite P. cbn [kset_phase kset_wbuf kset_out k_phase k_rbuf]. rewrite RB. rewrite decode_empty. reflexivity. }
    destruct (IH st1) as (st2 & E2 & R2 & W2).
    { unfold st1, kready. cbn [kset_phase kset_wbuf kset_out k_phase k_rbuf k_out]. repeat split; auto. }
    exists st2. cbn [flat_map]. split; [exact (krun_app _ _ st st1 [] st2 [] E E2)|]. split; [exact R2|].
    rewrite W2. unfold st1. cbn [kset_phase kset_wbuf k_wbuf]. unfold wire. cbn [map flat_map]. rewrite app_assoc. reflexivity.
Qed.
Lemma shut_grows c bs : Forall (fun b => b <> []) bs -> forall st, s_phase st = PSelect -> s_shut st = true ->
  exists st', run c st (map EvRead bs) = (st', map ORead bs) /\ s_phase st' = PSelect /\ s_shut st' = true /\
    s_rbuf st' = s_rbuf st ++ concat bs /\ s_wbuf st' = s_wbuf st.
Proof.
  induction 1 as [|b bs B _ IH]; intros st P SH.
  - exists st. cbn. rewrite app_nil_r. auto.
  - destruct b as [|x b]; [congruence|]. cbn [map run step]. rewrite P. unfold after_select. cbn [set_rbuf s_shut]. rewrite SH.
    destruct (IH (set_phase PSelect (set_rbuf (s_rbuf st ++ x :: b) st))) as (st' & E & P' & S' & R' & W'); [reflexivity|exact SH|].
    rewrite E. exists st'. split; [reflexivity|]. split; [exact P'|]. split; [exact S'|]. split; [|exact W'].
    rewrite R'. cbn [set_phase set_rbuf s_rbuf concat]. rewrite <- app_assoc. reflexivity.
Qed.
Lemma bridge_in bs : Forall (fun b => b <> []) bs -> forall st, t_phase st = TRun ->
  exists st', trun st (map TSockData bs) = (st', map XRead bs) /\ t_phase st' = TRun.
Proof.
  induction 1 as [|b bs B _ IH]; intros st P.
  - exists st. cbn. auto.
  - cbn [map trun]. destruct b as [|x b]; [congruence|].
    destruct (IH (tset (t_read (loop_top st) ++ x :: b) (t_write (loop_top st)) (t_link (loop_top st)) TRun (loop_top st)) eq_refl) as (st' & E & P').
    exists st'. unfold tstep. rewrite P. rewrite E. auto.
Qed.
Lemma bridge_out s ds : forall st, t_phase st = TRun ->
  exists st', trun st (map (fun d => TFrame (FData s d)) ds) = (st', map (fun d => XRecv (FData s d)) ds) /\ t_phase st' = TRun.
Proof.
  induction ds as [|d ds IH]; intros st P.
  - exists st. cbn. auto.
  - cbn [map trun].
    destruct (IH (tset (t_read (loop_top st)) (t_write (loop_top st) ++ d) (t_link (loop_top st)) TRun (loop_top st)) eq_refl) as (st' & E & P').
    exists st'. unfold tstep. rewrite P. rewrite E. auto.
Qed.
Lemma write_grows b k : forall st, exists st', vrun st (repeat (VWrite b RoomNo) k) = (st', repeat (WRetry b) k) /\ v_write st' = v_write st ++ concat (repeat b k).
Proof.
  induction k as [|k IH]; intros st; cbn [repeat vrun concat].
  - exists st. rewrite app_nil_r. auto.
  - cbn [vstep vpoll_write]. destruct (IH (set_write (v_write st ++ b) st)) as (st' & E & W). rewrite E. exists st'. split; [reflexivity|].
    rewrite W. cbn [set_write v_write]. rewrite <- app_assoc. reflexivity.
Qed.
Lemma vrun_app es1 : forall es2 st st1 tr1 st2 tr2, vrun st es1 = (st1, tr1) -> vrun st1 es2 = (st2, tr2) -> vrun st (es1 ++ es2) = (st2, tr1 ++ tr2).
Proof.
  induction es1 as [|e es1 IH]; intros es2 st st1 tr1 st2 tr2 H1 H2; cbn [vrun app] in *.
  - injection H1 as <- <-. exact H2.
  - destruct (vstep st e) as [sa oa]. destruct (vrun sa es1) as [sb ob] eqn:E. injection H1 as <- <-.
    rewrite (IH _ _ _ _ _ _ E H2). rewrite app_assoc. reflexivity.
Qed.
Lemma read_grows id d n : n <= nlen d -> 0 < n -> forall k, exists st tr,
  vrun (v_init id) (concat (repeat [VPush (FData id d); VRead n 1%nat] k)) = (st, tr) /\ v_chan st = [] /\
  nlen (flat_map (fun o => match o with WGot b => b | _ => [] end) tr) = N.of_nat k * n /\
  nlen (v_read st) = N.of_nat k * (nlen d - n) /\ v_hung st = false /\ v_id st = id.
Proof.
  intros L P. induction k as [|k (st & tr & E & C & G & R & HU & I1)].
  - exists (v_init id), []. cbn [repeat concat vrun v_init v_chan v_read v_hung v_id flat_map]. unfold nlen. cbn [length]. repeat split; lia.
  - replace (S k) with (k + 1)%nat by lia. rewrite repeat_app, concat_app. cbn [repeat concat]. rewrite app_nil_r.
    assert (X : exists st2 o, vrun st [VPush (FData id d); VRead n 1%nat] = (st2, [WGot o]) /\ v_chan st2 = [] /\ nlen o = n /\ nlen (v_read st2) + n = nlen (v_read st) + nlen d /\ v_hung st2 = false /\ v_id st2 = id).
    { cbn [vrun vstep]. rewrite HU, C. cbn [app set_chan v_chan v_hung v_read]. rewrite HU. cbn [vpoll_read].
      destruct (v_read st ++ d) as [|x b] eqn:B.
      { apply app_eq_nil in B as [_ ->]. unfold nlen in L. cbn in L. lia. }
      rewrite <- B. unfold give. eexists _, _. split; [reflexivity|]. cbn [set_chan set_read v_chan v_hung v_id v_read]. split; [reflexivity|].
      unfold nlen in *. rewrite firstn_length, skipn_length, app_length. split; [lia|]. split; [lia|]. auto. }
    destruct X as (st2 & o & E2 & C2 & O2 & R2 & H2 & I2). exists st2, (tr ++ [WGot o]).
    split; [exact (vrun_app _ _ _ _ _ _ _ E E2)|]. split; [exact C2|].
    rewrite flat_map_app. cbn [flat_map]. rewrite app_nil_r. unfold nlen in *. rewrite app_length. split; [lia|]. split; [|auto].
    assert (N.of_nat (length d) = n + (N.of_nat (length d) - n)) by lia.
    replace (N.of_nat (k + 1)) with (N.of_nat k + 1) by lia. rewrite N.mul_add_distr_r. lia.
Qed.
Lemma wire_longer s ds : Forall (fun d => fits (FData s d)) ds -> nlen (concat ds) <= nlen (wire (map (FData s) ds)).
Proof.
  unfold wire. induction 1 as [|d ds F _ IH]; [apply N.le_0_l|]. cbn [map flat_map concat]. unfold nlen in *. rewrite !app_length.
  cbn [encode]. unfold data_encode. cbn [fst]. rewrite app_length. lia.
Qed.
Lemma deliver_shut h f st : s_shut (fst (deliver h f st)) = s_shut st.
Proof. unfold deliver. destruct (gone h st); [|destruct (_ <? _)]; reflexivity. Qed.
Lemma handle_shut c f st : s_shut (fst (handle c f st)) = s_shut st \/ In (ORefused f) (snd (handle c f st)).
Proof.
  unfold handle. destruct f as [s d|s r|s d|s ms|u p].
  - destruct (negb _); [right; left; reflexivity|left; reflexivity].
  - destruct (negb _); [right; left; reflexivity|left]. destruct (lookup N.eqb s (s_map st)) as [h|]; [|reflexivity].
    pose proof (deliver_shut h (FClose s r) st) as X. destruct (deliver h (FClose s r) st). exact X.
  - destruct (negb _); [right; left; reflexivity|left]. destruct (lookup N.eqb s (s_map st)) as [h|]; [|reflexivity].
    pose proof (deliver_shut h (FData s d) st) as X. destruct (deliver h (FData s d) st). exact X.
  - destruct (negb _); [right; left; reflexivity|left; reflexivity].
  - destruct (_ && _); [left; reflexivity|]. destruct (negb _); [right; left; reflexivity|left; reflexivity].
Qed.
Lemma step_shut c st e : s_shut (fst (step c st e)) = s_shut st \/ exists f, In (ORefused f) (snd (step c st e)).
Proof.
  assert (T : s_shut (fst (tunnel_closed st)) = s_shut st).
  { unfold tunnel_closed. destruct (bye_keeps (s_map st) st) as [A _]. destruct (say_bye (s_map st) st). exact A. }
  destruct e as [s v|s d|s r|h|h| | |b| |n| |]; cbn [step].
  - left. destruct (visit_domain (s_maps st) v); [|reflexivity]. destruct (_ <? _); reflexivity.
  - left. destruct (_ && _); reflexivity.
  - left. destruct (_ <? _); reflexivity.
  - left. destruct (s_box st h); [reflexivity|]. destruct (gone h st); reflexivity.
  - left. reflexivity.
  - left. destruct (s_phase st); try reflexivity. destruct (s_work st) as [|[[s d] h] w]; reflexivity.
  - left. destruct (s_phase st); try reflexivity. destruct (s_out st); reflexivity.
  - left. destruct (s_phase st); try reflexivity. destruct b; [exact T|reflexivity].
  - left. destruct (s_phase st); try reflexivity. exact T.
  - left. destruct (s_phase st); try reflexivity. destruct (s_wbuf st) eqn:E; [reflexivity|]. cbn zeta.
    destruct (s_wbuf (set_wbuf _ st)); [destruct (s_shut st) eqn:X|]; cbn; auto.
  - left. destruct (s_phase st); try reflexivity. destruct (s_wbuf st); reflexivity.
  - destruct (s_phase st) as [| |h f|r]; try (left; reflexivity); [|left; apply deliver_shut].
    destruct (decode_frame (s_rbuf st)) as [|f rest|e rest|]; try (left; reflexivity).
    destruct (handle_shut c f (set_rbuf rest st)) as [X|X]; [left; exact X|right; exists f; exact X].
Qed.
Lemma run_unshut c es : forall st st' tr, run c st es = (st', tr) -> (forall f, ~ In (ORefused f) tr) -> s_shut st = false -> s_shut st' = false.
Proof.
  induction es as [|e es IH]; intros st st' tr H NR S0; cbn [run] in H.
  - injection H as <- <-. exact S0.
  - pose proof (step_shut c st e) as X. destruct (step c st e) as [st1 o1]. destruct (run c st1 es) as [st2 o2] eqn:E.
    injection H as <- <-. cbn [fst snd] in X. apply (IH _ _ _ E).
    + intros f I1. apply (NR f). apply in_app_iff. right. exact I1.
    + destruct X as [X|(f & X)]; [congruence|]. destruct (NR f). apply in_app_iff. left. exact X.
Qed.
Lemma khandle_short f st : kshort st -> kshort (fst (khandle f st)).
Proof.
  intros H. unfold khandle. destruct f as [s d|s r|s d|s ms|u p].
  - cbn zeta. destruct (choose (k_maps st) _) as [mp|].
    + destruct (is_proxy mp); [exact H|]. destruct (m_local mp); exact H.
    + destruct (nlen (k_out st) <? out_cap) eqn:E; [apply kout_fine; auto|exact H].
  - destruct (s =? 0); [exact H|]. destruct (lookup N.eqb s (k_map st)) as [h|]; [|exact H]. destruct (ktry_fine h (FClose s r) st H) as (A & _).
    destruct (ktry_send h (FClose s r) st). exact A.
  - destruct (lookup N.eqb s (k_map st)) as [h|]; [|exact H]. destruct (ktry_fine h (FData s d) st H) as (A & _).
    destruct (ktry_send h (FData s d) st). exact A.
  - exact H.
  - exact H.
Qed.
Lemma kstep_short st e : kshort st -> kshort (fst (kstep st e)).
Proof.
  intros H. pose proof H as (A & B & C).
  assert (T : kshort (fst (ktunnel_closed st))).
  { unfold ktunnel_closed. destruct (kbye_fine (k_map st) st H) as [X _]. destruct (ksay_bye (k_map st) st). exact X. }
  destruct e; cbn [kstep].
  - destruct (nlen (k_work st) <? work_cap) eqn:E; [|exact H]. apply N.ltb_lt in E. unfold kshort. cbn [fst kfresh kset_work k_work k_out k_box].
    rewrite nlen_snoc. repeat split; auto. lia.
  - destruct (nlen (k_out st) <? out_cap) eqn:E; [|exact H]. apply kout_fine; auto.
  - destruct (nlen (k_out st) <? out_cap) eqn:E; [|exact H]. apply kout_fine; auto.
  - destruct (k_box st h) as [|f q] eqn:E; [exact H|]. destruct (kgone h st); [exact H|].
    apply kshort_box; [exact H|]. specialize (C h). rewrite E, nlen_cons' in C. lia.
  - exact H.
  - destruct (lookup N.eqb h (k_conn st)) as [s|]; [|exact H]. destruct (nlen (k_out st) <? out_cap) eqn:E; [|exact H].
    apply (kout_fine (FClose s []) (kset_gone (h :: k_gone st) (kset_conn (remove N.eqb h (k_conn st)) st))); [exact H|exact E].
  - destruct (k_phase st); try exact H. destruct (k_work st) as [|[[s d] h] w] eqn:E; [exact H|].
    rewrite nlen_cons' in A. unfold kshort. cbn [fst kset_phase kset_wbuf kset_map kset_work k_work k_out k_box]. repeat split; auto. lia.
  - destruct (k_phase st); try exact H. destruct (k_out st) as [|f o] eqn:E; [exact H|].
    rewrite nlen_cons' in B. unfold kshort. cbn [fst kset_phase kset_wbuf kset_out k_work k_out k_box]. repeat split; auto. lia.
  - destruct (k_phase st); try exact H. destruct b; [exact T|exact H].
  - destruct (k_phase st); try exact H. exact T.
  - destruct (k_phase st); try exact H. destruct (k_wbuf st); exact H.
  - destruct (k_phase st); try exact H. destruct (k_wbuf st); exact H.
  - destruct (k_phase st) as [| |f|r]; try exact H.
    + destruct (decode_frame (k_rbuf st)); try exact H. apply khandle_short. exact H.
    + destruct (nlen (k_out st) <? out_cap) eqn:E; [|exact H]. apply (kout_fine f st); auto.
Qed.
Lemma krun_short es : forall st, kshort st -> kshort (fst (krun st es)).
Proof.
  induction es as [|e es IH]; intros st H; [exact H|]. cbn [krun]. pose proof (kstep_short st e H) as X.
  destruct (kstep st e) as [st1 o1]. specialize (IH st1 X). destruct (krun st1 es) as [st2 o2]. exact IH.
Qed.
