(* Property theorems for the stream ends: C12 - C16. *)
From Verif Require Import Base ProtModel VsModel VsSpec VsProofs.
Open Scope N_scope.

(* C12: at every moment what was read is a prefix of what the tunnel delivered. *)
Theorem C12_prefix : forall id es st tr, vrun (v_init id) es = (st, tr) ->
  is_prefix_of (vread tr) (payloads (pushed false es)).
Proof. exact vread_prefix. Qed.
(* ... and nothing is lost inside: read, buffered and queued bytes add up. *)
Theorem C12_conservation : forall es st st' tr, vrun st es = (st', tr) ->
  vread tr ++ v_read st' ++ payloads (v_chan st')
  = v_read st ++ payloads (v_chan st ++ pushed (v_hung st) es).
Proof. exact vrun_conserve. Qed.
(* C12, second half ("after end of stream nothing more is delivered") is false:
   bytes held back at the close are delivered by a later read. *)
Theorem C12_after_eof_refuted : forall id x held, held <> [] -> exists es st,
  vrun (v_init id) es = (st, [WGot [x]; WEof; WGot held]) /\ pushed false es = [FData id (x :: held); FClose id []].
Proof.
  intros id x held H. exists [VPush (FData id (x :: held)); VPush (FClose id []); VRead 1 1; VRead 8 1; VRead (nlen held) 1].
  eexists. split; [|reflexivity]. cbn [vrun vstep v_init v_hung v_chan v_read set_chan set_read v_id v_write app vpoll_read give].
  replace (N.to_nat (N.min (nlen (x :: held)) 1)) with 1%nat by (rewrite nlen_cons; lia).
  cbn [firstn skipn vrun vstep v_hung v_chan v_read set_chan set_read v_id v_write app vpoll_read]. destruct held as [|y l]; [congruence|].
  unfold give. rewrite N.min_id. unfold nlen. rewrite Nat2N.id, firstn_all, skipn_all. reflexivity.
Qed.
Example C12_nonvacuous :
  snd (vrun (v_init 1) [VPush (FData 1 [1; 2; 3]); VRead 2 1; VPush (FData 1 [4]); VRead 0 1; VRead 9 1; VRead 9 1])
  = [WGot [1; 2]; WGot []; WGot [3; 4]; WPend].
Proof. reflexivity. Qed.
Print Assumptions C12_prefix.
Print Assumptions C12_conservation.
Print Assumptions C12_after_eof_refuted.

(* C13 full statement: at end of file everything sent before the close was read.
   False: bytes that did not fit the reader's buffer are dropped. *)
Theorem C13_all_before_close_refuted : forall id r x held, exists es st,
  vrun (v_init id) es = (st, [WGot [x]; WEof]) /\ pushed false es = [FData id (x :: held); FClose id r] /\ v_read st = held.
Proof.
  intros id r x held. exists [VPush (FData id (x :: held)); VPush (FClose id r); VRead 1 1; VRead 8 1].
  eexists. split; [|split; [reflexivity|]].
  - cbn [vrun vstep v_init v_hung v_chan v_read set_chan set_read v_id v_write app vpoll_read give].
    replace (N.to_nat (N.min (nlen (x :: held)) 1)) with 1%nat by (rewrite nlen_cons; lia). reflexivity.
  - reflexivity.
Qed.
(* Proved part: what is missing at an end of file is exactly the buffered rest. *)
Theorem C13_missing_exact_partial : forall id es n budget st tr,
  vrun (v_init id) es = (st, tr) -> snd (vstep st (VRead n budget)) = [WEof] ->
  exists c rest, pushed false es = c ++ rest /\
    ((exists c0 f, c = c0 ++ [f] /\ is_end f) \/ (rest = [] /\ In VHang es)) /\
    vread tr ++ v_read (fst (vstep st (VRead n budget))) = payloads c.
Proof. exact eof_exact. Qed.
(* Proved part: a reader whose buffer takes any one data frame gets everything. *)
Theorem C13_large_reads_partial : forall id es n budget st tr,
  big_reads (es ++ [VRead n budget]) -> vrun (v_init id) es = (st, tr) ->
  snd (vstep st (VRead n budget)) = [WEof] ->
  exists c rest, pushed false es = c ++ rest /\
    ((exists c0 f, c = c0 ++ [f] /\ is_end f) \/ (rest = [] /\ In VHang es)) /\
    vread tr = payloads c.
Proof. exact eof_complete. Qed.
Example C13_nonvacuous :
  let es := [VPush (FData 1 [1; 2]); VPush (FData 1 [3]); VPush (FClose 1 []); VRead 2 1; VRead 2 1] in
  big_reads (es ++ [VRead 2 1]) /\ vread (snd (vrun (v_init 1) es)) = [1; 2; 3] /\
  snd (vstep (fst (vrun (v_init 1) es)) (VRead 2 1)) = [WEof].
Proof.
  split; [|split; reflexivity]. intros n b f Hn Hf. cbn in Hn, Hf.
  destruct Hn as [E|[E|[E|[E|[E|[E|[]]]]]]]; try discriminate E; injection E as <- <-;
    destruct Hf as [E|[E|[E|[E|[E|[E|[]]]]]]]; try discriminate E; injection E as <-;
    vm_compute; discriminate.
Qed.
Print Assumptions C13_all_before_close_refuted.
Print Assumptions C13_missing_exact_partial.
Print Assumptions C13_large_reads_partial.

(* C14 full statement: the data frames sent carry the accepted buffers exactly
   once, in order.  False: a write retried after congestion is sent twice. *)
Theorem C14_exactly_once_refuted : forall st b, v_write st = [] -> exists st' tr,
  vrun st [VWrite b RoomNo; VWrite b RoomYes] = (st', tr) /\ v_write st' = [] /\
  payloads (vsent tr) = b ++ b /\ concat (accepted tr) = b.
Proof.
  intros st b W. eexists; eexists. split; [cbn [vrun vstep vpoll_write set_write v_write]; rewrite W; reflexivity|].
  split; [reflexivity|]. cbn. rewrite !app_nil_r. split; reflexivity.
Qed.
(* ... and when the tunnel is gone the writer waits forever: the write is
   neither accepted nor reported as failed, and its bytes pile up. *)
Theorem C14_closed_hangs_refuted : forall es st st' tr,
  (forall b r, In (VWrite b r) es -> r = RoomClosed) -> (forall r, In (VFlush r) es -> r = RoomClosed) ->
  vrun st es = (st', tr) ->
  accepted tr = [] /\ vsent tr = [] /\ v_write st' = v_write st ++ written es.
Proof. exact vclosed_grows. Qed.
Example C14_closed_hangs_case : vrun (v_init 5) [VWrite [1; 2] RoomClosed; VWrite [1; 2] RoomClosed] =
  (VSt 5 [] false [] [1; 2; 1; 2], [WRetry [1; 2]; WRetry [1; 2]]).
Proof. reflexivity. Qed.
(* Proved part: sent bytes are exactly the offered buffers, retries included, in
   order, all on this stream's id. *)
Theorem C14_offered_partial : forall es st st' tr, vrun st es = (st', tr) ->
  payloads (vsent tr) ++ v_write st' = v_write st ++ concat (offered tr) /\
  Forall (data_of (v_id st)) (vsent tr) /\ v_id st' = v_id st.
Proof. exact vwrite_conserve. Qed.
(* Proved part: without congestion every write is one frame with its bytes. *)
Theorem C14_uncongested_partial : forall es st st' tr,
  v_write st = [] -> (forall b r, In (VWrite b r) es -> r = RoomYes) -> vrun st es = (st', tr) ->
  vsent tr = map (FData (v_id st)) (accepted tr) /\ v_write st' = [] /\
  accepted tr = flat_map (fun e => match e with VWrite b _ => [b] | _ => [] end) es.
Proof. exact vwrite_once. Qed.
Example C14_nonvacuous :
  snd (vrun (v_init 5) [VWrite [1; 2] RoomYes; VFlush RoomNo; VWrite [3] RoomYes]) =
  [WSent (FData 5 [1; 2]); WAccept [1; 2]; WFlushed; WSent (FData 5 [3]); WAccept [3]].
Proof. reflexivity. Qed.
Print Assumptions C14_exactly_once_refuted.
Print Assumptions C14_closed_hangs_refuted.
Print Assumptions C14_offered_partial.
Print Assumptions C14_uncongested_partial.

(* C15: both directions keep order; one close frame, last, when the bridge is done
   (unless the tunnel itself is gone: XCloseFailed). *)
Theorem C15_bridge : forall id pre es st tr, trun (t_init id pre) es = (st, tr) ->
  is_prefix_of (sock_out tr) (payloads (tunnel_in tr)) /\
  exists ds cl, tunnel_out tr = ds ++ cl /\ Forall (data_of id) ds /\
    is_prefix_of (payloads ds) (pre ++ sock_in tr) /\
    match t_phase st with
    | TDone _ => cl = [FClose id []] \/ (cl = [] /\ In XCloseFailed tr)
    | _ => cl = []
    end.
Proof. exact bridge. Qed.
(* The end of either side ends the bridge, and its last act is that close. *)
Theorem C15_ends : forall st e, t_phase st = TRun ->
  e = TSockEof \/ e = TSockErr \/ e = THung \/ (exists f, e = TFrame f /\ is_end f) ->
  exists r, t_phase (fst (tstep st e)) = TClosing r /\
    forall ok, t_phase (fst (tstep (fst (tstep st e)) (TCloseSend ok))) = TDone r /\
      (ok = true -> snd (tstep (fst (tstep st e)) (TCloseSend ok)) = [XSent (FClose (t_id st) [])]).
Proof. exact bridge_ends. Qed.
(* Data frames stay far below the 16 MiB wire limit (C01, C05). *)
Theorem C15_frames_fit : forall id es st tr, trun (t_init id []) es = (st, tr) ->
  (forall b, In (TSockData b) es -> nlen b <= 20480) ->
  Forall (fun f => nlen (payload f) <= 20480) (tunnel_out tr).
Proof. exact bridge_frames. Qed.
Example C15_nonvacuous :
  snd (trun (t_init 3 []) [TSockData [1; 2]; TFrame (FData 3 [8; 9]); TRoom true; TWrote 1; TWrote 5;
                           TSockEof; TCloseSend true]) =
  [XRead [1; 2]; XRecv (FData 3 [8; 9]); XSent (FData 3 [1; 2]); XWrote [8]; XWrote [9]; XEnd TOk;
   XSent (FClose 3 [])].
Proof. reflexivity. Qed.
Print Assumptions C15_bridge.
Print Assumptions C15_ends.
Print Assumptions C15_frames_fit.

(* C16 full statement, first half: at end of file of the socket everything read
   was sent.  False: nothing that waits then is ever sent, which may be all of it. *)
Theorem C16_flush_to_tunnel_refuted :
  (forall st es, t_phase st = TRun -> payloads (tunnel_out (snd (trun st (TSockEof :: es)))) = []) /\
  (forall id d, d <> [] -> exists es st tr,
    trun (t_init id []) es = (st, tr) /\ t_phase st = TDone TOk /\ sock_in tr = d /\ tunnel_out tr = [FClose id []]).
Proof.
  split.
  - intros st es P. cbn [trun]. destruct (tstep st TSockEof) as [st1 o1] eqn:E. unfold tstep in E. rewrite P in E. injection E as <- <-.
    pose proof (ended_quiet es (tset (t_read (loop_top st)) (t_write (loop_top st)) (t_link (loop_top st)) (TClosing TOk) (loop_top st))) as Q.
    destruct (trun _ es) as [st2 o2]. apply Q. cbn. discriminate.
  - intros id d H. destruct d as [|x l]; [congruence|]. exists [TSockData (x :: l); TSockEof; TCloseSend true]. eexists; eexists.
    split; [reflexivity|]. split; [reflexivity|]. split; [cbn; rewrite app_nil_r; reflexivity|reflexivity].
Qed.
(* Second half: when the peer closes, everything received was written.  False: nothing
   that waits then is ever written. *)
Theorem C16_flush_to_socket_refuted :
  (forall st es s r, t_phase st = TRun -> sock_out (snd (trun st (TFrame (FClose s r) :: es))) = []) /\
  (forall id d r, exists es st tr,
    trun (t_init id []) es = (st, tr) /\ t_phase st = TDone TOk /\ tunnel_in tr = [FData id d; FClose id r] /\ sock_out tr = []).
Proof.
  split.
  - intros st es s r P. cbn [trun]. destruct (tstep st (TFrame (FClose s r))) as [st1 o1] eqn:E. unfold tstep in E. rewrite P in E. injection E as <- <-.
    pose proof (ended_quiet es (tset (t_read (loop_top st)) (t_write (loop_top st)) (t_link (loop_top st)) (TClosing TOk) (loop_top st))) as Q.
    destruct (trun _ es) as [st2 o2]. apply Q. cbn. discriminate.
  - intros id d r. exists [TFrame (FData id d); TFrame (FClose id r); TCloseSend true]. eexists; eexists.
    split; [reflexivity|]. split; [reflexivity|]. split; reflexivity.
Qed.
(* Proved part: what is lost is exactly what is still queued inside. *)
Theorem C16_lost_exact_partial : forall id pre es st tr, trun (t_init id pre) es = (st, tr) ->
  sock_out tr ++ t_write st = payloads (tunnel_in tr) /\
  payloads (tunnel_out tr) ++ payloads (t_link st) ++ t_read st = pre ++ sock_in tr.
Proof. exact bridge_exact. Qed.
Print Assumptions C16_flush_to_tunnel_refuted.
Print Assumptions C16_flush_to_socket_refuted.
Example C16_cases :
  let '(st, tr) := trun (t_init 3 [5]) [TSockData [1; 2]; TFrame (FData 3 [8; 9]); TWrote 1; TSockEof] in
  sock_out tr = [8] /\ t_write st = [9] /\ payloads (tunnel_in tr) = [8; 9] /\ payloads (tunnel_out tr) = [] /\ payloads (t_link st) = [5; 1; 2].
Proof. vm_compute. repeat split; reflexivity. Qed.
Print Assumptions C16_lost_exact_partial.

(* C160: the end of a tunnelled connection reaches the other side.  It does not
   when the side that ends is a virtual stream (the tunnelled proxy, and a visitor of
   an HTTP mapping): whatever its owner does, shutting it down and dropping it
   included, it sends data frames only, never an end of stream ... *)
Theorem C160_virtual_never_closes_refuted : forall id es st tr,
  vrun (v_init id) es = (st, tr) -> forall f, In f (vsent tr) -> ~ is_end f.
Proof.
  intros id es st tr H f Hin. destruct (vwrite_conserve _ _ _ _ H) as (_ & B & _).
  rewrite Forall_forall in B. destruct (B f Hin) as [d ->]. intros [].
Qed.
(* ... so the bridge at the other end of the tunnel, which receives what the stream
   sent, runs on for ever after the stream is shut down and dropped: only its own
   socket, or the loss of the whole tunnel, ends it. *)
Theorem C160_other_end_not_told_refuted : forall id ves vst' vtr es st tr,
  vrun (v_init id) (ves ++ [VShutdown; VDrop]) = (vst', vtr) ->
  trun (t_init id []) es = (st, tr) ->
  (forall f, In (TFrame f) es -> In f (vsent vtr)) ->
  (forall e, In e es -> stops e = false) ->
  t_phase st = TRun /\ (forall f, In f (tunnel_out tr) -> ~ is_end f).
Proof.
  intros id ves vst' vtr es st tr Hv Ht Hf Hs.
  assert (P : t_phase st = TRun).
  { apply (bridge_goes_on es (t_init id []) st tr eq_refl); [|exact Hs|exact Ht].
    intros f Hi. exact (C160_virtual_never_closes_refuted _ _ _ _ Hv f (Hf f Hi)). }
  split; [exact P|]. intros f Hi.
  destruct (bridge _ _ _ _ _ Ht) as (_ & ds & cl & E & D & _ & C). rewrite P in C. subst cl.
  rewrite app_nil_r in E. rewrite E in Hi. rewrite Forall_forall in D. destruct (D f Hi) as [d ->]. intros [].
Qed.
(* Shutting the stream down is reported as done at once and does nothing: everything goes
   on as if it had not been called. *)
Theorem C160_shutdown_refuted : forall id es1 es2 st1 tr1 st2 tr2,
  vrun (v_init id) es1 = (st1, tr1) -> vrun (v_init id) (es1 ++ es2) = (st2, tr1 ++ tr2) ->
  vrun (v_init id) (es1 ++ VShutdown :: es2) = (st2, tr1 ++ WShut :: tr2).
Proof.
  intros id es1 es2 st1 tr1 st2 tr2 H1 H2. rewrite vrun_app, H1 in H2. rewrite vrun_app, H1. cbn [fst snd vrun vstep vpoll_shutdown] in *.
  destruct (vrun st1 es2) as [s o]. cbn [fst snd app] in *. injection H2 as -> H2. apply app_inv_head in H2. subst o. reflexivity.
Qed.
(* Proved part: the other direction.  When the bridge ends and its tunnel still takes
   frames, its last frame is the end of stream, and a reader of the virtual stream that
   is handed all the bridge's frames and reads with enough room sees end of stream
   after exactly the bytes of those frames. *)
Theorem C160_bridge_closes_partial : forall id es st tr r,
  trun (t_init id []) es = (st, tr) -> t_phase st = TDone r -> ~ In XCloseFailed tr ->
  exists ds, tunnel_out tr = ds ++ [FClose id []] /\ Forall (data_of id) ds /\ forall ves vst' vtr n budget,
      pushed false ves = tunnel_out tr -> ~ In VHang ves -> big_reads (ves ++ [VRead n budget]) ->
      vrun (v_init id) ves = (vst', vtr) -> snd (vstep vst' (VRead n budget)) = [WEof] ->
      vread vtr = payloads ds.
Proof.
  intros id es st tr r Ht Hp Hc.
  destruct (bridge _ _ _ _ _ Ht) as (_ & ds & cl & E & D & _ & C). rewrite Hp in C.
  destruct C as [->|[_ C]]; [|contradiction]. exists ds. split; [exact E|]. split; [exact D|].
  intros ves vst' vtr n budget Hpush Hh Hb Hv He.
  destruct (eof_complete _ _ _ _ _ _ Hb Hv He) as (c & rest & A & [(c0 & f & -> & Hf)|[_ F]] & G); [|contradiction].
  rewrite Hpush, E in A.
  assert (K : c0 = ds).
  { clear - A D Hf. revert c0 A. induction ds as [|x ds IH]; intros c0 A.
    - destruct c0 as [|y c0]; [reflexivity|]. cbn in A. injection A as _ A.
      destruct c0; discriminate A.
    - inversion D as [|? ? Hx D']; subst. destruct c0 as [|y c0]; cbn in A.
      + injection A as -> _. destruct Hx as [d ->]. destruct Hf.
      + injection A as <- A. f_equal. exact (IH D' c0 A). }
  subst c0. rewrite G, payloads_app. assert (payloads [f] = []) as ->.
  { destruct f; try destruct Hf; reflexivity. }
  apply app_nil_r.
Qed.
Example C160_cases :
  vrun (v_init 5) [VWrite [1; 2] RoomYes; VShutdown; VDrop] =
    (VSt 5 [] false [] [], [WSent (FData 5 [1; 2]); WAccept [1; 2]; WShut]) /\ (let '(st, tr) := trun (t_init 5 []) [TFrame (FData 5 [1; 2]); TWrote 2; TSockData [9]; TRoom true; TLoopTop] in
   t_phase st = TRun /\ sock_out tr = [1; 2]) /\ (let '(st, tr) := trun (t_init 5 []) [TSockData [9]; TRoom true; TSockEof; TCloseSend true] in
   t_phase st = TDone TOk /\ tunnel_out tr = [FData 5 [9]; FClose 5 []]) /\ snd (vrun (v_init 5) [VPush (FData 5 [9]); VPush (FClose 5 []); VRead 10 9; VRead 10 9]) = [WGot [9]; WEof].
Proof. repeat split. Qed.
Print Assumptions C160_virtual_never_closes_refuted.
Print Assumptions C160_other_end_not_told_refuted.
Print Assumptions C160_shutdown_refuted.
Print Assumptions C160_bridge_closes_partial.
