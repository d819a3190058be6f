(* Property theorems: C181, what waits for a slow receiver. *)
From Coq Require Import String.
From Verif Require Import Base Text ProtModel ProtSpec ProtProofs CsModel CcModel VsModel KpProofs BpSpec BpProofs.
Open Scope N_scope.

(* C181: the queues of both ends of a tunnel are bounded: 10 announced streams, 100 frames
   on their way out and 10 frames for each stream. *)
Theorem C181_server_queues : forall c es st tr, run c (s_init c) es = (st, tr) ->
  nlen (s_work st) <= 10 /\ nlen (s_out st) <= 100 /\ forall h, nlen (s_box st h) <= 10.
Proof.
  intros c es st tr H. pose proof (run_short c es (s_init c)) as X. rewrite H in X. apply X.
  repeat split; cbn [s_init s_work s_out s_box]; intros; apply N.le_0_l.
Qed.
Theorem C181_client_queues : forall c ms es st tr, krun (k_init c ms) es = (st, tr) ->
  nlen (k_work st) <= 10 /\ nlen (k_out st) <= 100 /\ forall h, nlen (k_box st h) <= 10.
Proof.
  intros c ms es st tr H. pose proof (krun_short es (k_init c ms)) as X. rewrite H in X. apply X.
  repeat split; cbn [k_init k_work k_out k_box]; intros; apply N.le_0_l.
Qed.
(* C181: of what came through the tunnel, less than one frame and one read wait to be
   decoded, as long as the peer has not been refused. *)
Theorem C181_server_in_partial : forall m c es st tr, Forall (reads_bytes m) es -> run c (s_init c) es = (st, tr) ->
  (forall f, ~ In (ORefused f) tr) -> nlen (s_rbuf st) < frame_room + m.
Proof.
  intros m c es st tr F H NR. pose proof (run_small m c es F (s_init c)) as X. rewrite H in X. cbn [fst] in X.
  assert (SH : s_shut st = false) by (apply (run_unshut c es _ _ _ H); auto).
  apply X; [|exact SH]. intros _. cbn [s_init s_rbuf]. repeat split; intros; unfold frame_room, nlen; change (2 ^ 24) with 16777216; cbn [length]; lia.
Qed.
Theorem C181_client_in : forall m c ms es st tr, Forall (kreads_bytes m) es -> krun (k_init c ms) es = (st, tr) ->
  nlen (k_rbuf st) < frame_room + m.
Proof.
  intros m c ms es st tr F H. pose proof (krun_fine m es F (k_init c ms)) as X. rewrite H in X. cbn [fst] in X.
  apply X. split.
  - repeat split; cbn [k_init k_work k_out k_box]; intros; apply N.le_0_l.
  - unfold ksmall. change (k_rbuf (k_init c ms)) with (@nil N). repeat split; intros; unfold frame_room, nlen; change (2 ^ 24) with 16777216; cbn [length]; lia.
Qed.

(* False of the code for what goes out: while the peer takes nothing, all that a stream
   sends is taken from it and kept. *)
Theorem C181_server_out_refuted : forall s ds, Forall (fun d => fits (FData s d)) ds -> wire_sock s ->
  exists es st tr, run (Creds None None) (s_init (Creds None None)) es = (st, tr) /\ s_phase st = PSelect /\
    (forall b, ~ In (OWrote b) tr) /\ s_wbuf st = wire (map (FData s) ds) /\ nlen (concat ds) <= nlen (s_wbuf st).
Proof.
  intros s ds F W.
  destruct (roundtrip _ [] (create_fits s W)) as [_ D1]. rewrite app_nil_r in D1.
  destruct (fst (encode (FCreate s None))) as [|x y] eqn:EN; [destruct (enc_nonempty _ (create_fits s W) EN)|].
  set (c := Creds None None).
  assert (E1 : exists st1 tr1, run c (s_init c) [EvRead (x :: y); EvDecode; EvDecode] = (st1, tr1) /\ ready s st1 /\ s_wbuf st1 = [] /\ forall b, ~ In (OWrote b) tr1).
  { unfold s_init. cbn [run step s_phase]. unfold after_select. cbn [set_rbuf s_shut set_phase s_phase s_rbuf app]. rewrite D1. cbn [public].
    unfold handle. cbn [set_rbuf set_phase s_verify]. change (is_none (c_user c) && is_none (c_pass c)) with true. cbn [negb].
    cbn [open_new set_map set_rbuf set_phase s_phase s_rbuf]. rewrite decode_empty. eexists _, _. split; [reflexivity|].
    split; [|split; [reflexivity|]].
    - unfold ready. cbn. rewrite N.eqb_refl. repeat split; reflexivity.
    - intros b. cbn. intuition discriminate. }
  destruct E1 as (st1 & tr1 & E1 & R1 & W1 & NO). destruct (data_grows c s ds st1 R1) as (st2 & E2 & R2 & W2).
  exists ([EvRead (x :: y); EvDecode; EvDecode] ++ flat_map (fun d => [EvData s d; EvOut; EvDecode]) ds), st2, (tr1 ++ []).
  split; [exact (run_app c _ _ _ _ _ _ _ E1 E2)|]. split; [apply R2|]. rewrite app_nil_r. split; [exact NO|].
  rewrite W1 in W2. split; [exact W2|]. rewrite W2. apply wire_longer, F.
Qed.
Theorem C181_client_out_refuted : forall c ms s ds, snd (hello c ms) = None -> Forall (fun d => fits (FData s d)) ds ->
  exists es st tr, krun (k_init c ms) es = (st, tr) /\ k_phase st = KSelect /\
    (forall b, ~ In (QWrote b) tr) /\ k_wbuf st = fst (hello c ms) ++ wire (map (FData s) ds) /\ nlen (concat ds) <= nlen (k_wbuf st).
Proof.
  intros c ms s ds HE F. destruct (kdata_grows s ds (k_init c ms)) as (st & E & R & W).
  { unfold kready, k_init. rewrite HE. repeat split. }
  eexists _, st, []. split; [exact E|]. split; [apply R|]. split; [intros b []|]. cbn [k_init k_wbuf] in W. split; [exact W|].
  rewrite W. unfold nlen at 2. rewrite app_length. pose proof (wire_longer s ds F) as L. unfold nlen in *. lia.
Qed.
(* False of the code for what comes in from a peer that was refused: nothing it sends is
   used, all of it is kept. *)
Theorem C181_refused_refuted : forall c s bs, c_user c <> None \/ c_pass c <> None -> wire_sock s -> Forall (fun b => b <> []) bs ->
  exists es st tr, run c (s_init c) es = (st, ORead (fst (encode (FCreate s None))) :: ORefused (FCreate s None) :: tr) /\
    tr = map ORead bs /\ s_phase st = PSelect /\ s_rbuf st = concat bs.
Proof.
  intros c s bs HC W F.
  destruct (roundtrip _ [] (create_fits s W)) as [_ D1]. rewrite app_nil_r in D1.
  destruct (fst (encode (FCreate s None))) as [|x y] eqn:EN; [destruct (enc_nonempty _ (create_fits s W) EN)|].
  assert (V : is_none (c_user c) && is_none (c_pass c) = false).
  { destruct HC as [H|H]; [destruct (c_user c); [reflexivity|congruence]|destruct (c_pass c); [apply andb_false_r|congruence]]. }
  assert (E1 : exists st1, run c (s_init c) [EvRead (x :: y); EvDecode] = (st1, [ORead (x :: y); ORefused (FCreate s None)]) /\ s_phase st1 = PSelect /\ s_shut st1 = true /\ s_rbuf st1 = []).
  { unfold s_init. cbn [run step s_phase]. unfold after_select. cbn [set_rbuf s_shut set_phase s_phase s_rbuf app]. rewrite D1. cbn [public].
    unfold handle. cbn [set_rbuf set_phase s_verify]. rewrite V. cbn [negb]. eexists. split; [reflexivity|]. repeat split. }
  destruct E1 as (st1 & E1 & P1 & S1 & R1). destruct (shut_grows c bs F st1 P1 S1) as (st2 & E2 & P2 & _ & R2 & _).
  exists ([EvRead (x :: y); EvDecode] ++ map EvRead bs), st2, (map ORead bs).
  split; [exact (run_app c _ _ _ _ _ _ _ E1 E2)|]. split; [reflexivity|]. split; [exact P2|]. rewrite R2, R1. reflexivity.
Qed.
(* False of the code for the bridge between a connection and a stream, in both directions:
   it goes on reading although nothing it read is taken. *)
Theorem C181_bridge_refuted : forall id,
  (forall bs, Forall (fun b => b <> []) bs ->
     exists es st, trun (t_init id []) es = (st, map XRead bs) /\ t_phase st = TRun) /\
  (forall ds, exists es st, trun (t_init id []) es = (st, map (fun d => XRecv (FData id d)) ds) /\ t_phase st = TRun).
Proof.
  intros id. split.
  - intros bs F. destruct (bridge_in bs F (t_init id []) eq_refl) as (st & E & P). eexists _, st. eauto.
  - intros ds. destruct (bridge_out id ds (t_init id []) eq_refl) as (st & E & P). eexists _, st. eauto.
Qed.
(* False of the code for a stream whose owner reads less than arrives: each read takes one
   more frame from the queue, whatever is already there. *)
Theorem C181_read_refuted : forall id (d : bytes) n k, n <= nlen d -> 0 < n -> exists es st tr,
  vrun (v_init id) es = (st, tr) /\ v_chan st = [] /\
  nlen (flat_map (fun o => match o with WGot b => b | _ => [] end) tr) = N.of_nat k * n /\
  nlen (v_read st) = N.of_nat k * (nlen d - n).
Proof.
  intros id d n k L P. destruct (read_grows id d n L P k) as (st & tr & E & C & G & R & _). eexists _, st, tr. eauto.
Qed.
(* False of the code for a stream whose owner writes while the queue is full: every attempt
   adds the bytes once more. *)
Theorem C181_write_refuted : forall id (b : bytes) k, exists st,
  vrun (v_init id) (repeat (VWrite b RoomNo) k) = (st, repeat (WRetry b) k) /\ v_write st = concat (repeat b k).
Proof. intros id b k. destruct (write_grows b k (v_init id)) as (st & E & W). exists st. split; [exact E|exact W]. Qed.

Example C181_witness : wire_sock 1 /\ Forall (fun d => fits (FData 1 d)) [[1; 2]; [3]] /\ snd (hello (Creds None None) []) = None /\
  s_wbuf (fst (run (Creds None None) (s_init (Creds None None))
    [EvRead (fst (encode (FCreate 1 None))); EvDecode; EvDecode; EvData 1 [1; 2]; EvOut; EvDecode; EvData 1 [3]; EvOut; EvDecode]))
  = wire (map (FData 1) [[1; 2]; [3]]) /\
  fst (vrun (v_init 1) [VPush (FData 1 [7; 8; 9]); VRead 1 5; VPush (FData 1 [7; 8; 9]); VRead 1 5]) = VSt 1 [] false [9; 7; 8; 9] [].
Proof.
  assert (W : wire_sock 1) by (exists 0, 1; repeat split; reflexivity).
  split; [exact W|]. split; [repeat constructor; exact W|]. repeat split; vm_compute; reflexivity.
Qed.

Print Assumptions C181_server_queues.
Print Assumptions C181_client_queues.
Print Assumptions C181_server_in_partial.
Print Assumptions C181_client_in.
Print Assumptions C181_server_out_refuted.
Print Assumptions C181_client_out_refuted.
Print Assumptions C181_refused_refuted.
Print Assumptions C181_bridge_refuted.
Print Assumptions C181_read_refuted.
Print Assumptions C181_write_refuted.
