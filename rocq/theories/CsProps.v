(* Property theorems for the tunnel server: C07, C08, C49. *)
From Coq Require Import String.
From Verif Require Import Base Text ProtModel ProtSpec CsModel CsSpec CsProofs CsRoute CsOwn.
Open Scope N_scope.

(* C07: on every history, either the very first frame received is a token
   matching every configured credential, or nothing at all was done for the peer
   and all it was sent are close frames. *)
Theorem C07_auth_before_service : forall c es st tr,
  c_user c <> None \/ c_pass c <> None -> run c (s_init c) es = (st, tr) ->
  (exists u p fs, frames (bytes_read tr) = FToken u p :: fs /\ matches c u p) \/
  ((forall e, In e tr -> ~ service e) /\
   exists l, Forall is_close l /\ written tr ++ s_wbuf st = wire l).
Proof. exact auth_before_service. Qed.

(* C07: a refused frame was the first one, did not match, is the only frame ever
   looked at, and the peer is sent the close notice. *)
Theorem C07_refusal : forall c es st tr f,
  c_user c <> None \/ c_pass c <> None -> run c (s_init c) es = (st, tr) ->
  In (ORefused f) tr ->
  refused tr = [f] /\ (exists fs, frames (bytes_read tr) = f :: fs) /\
  (forall u p, f = FToken u p -> ~ matches c u p) /\
  (forall e, In e tr -> ~ service e) /\
  (exists l, Forall is_close l /\ In (FClose 0 (txt "not verify so close")) l /\ written tr ++ s_wbuf st = wire l).
Proof. exact refused_closes. Qed.

Definition ex_creds := Creds (Some (txt "u")) (Some (txt "p")).
Example C07_nonvacuous_good :
  let bs := fst (encode (FToken (txt "u") (txt "p"))) ++ fst (encode (FCreate 1 None)) in
  snd (run ex_creds (s_init ex_creds) [EvRead bs; EvDecode; EvDecode]) =
  [ORead bs; ODecoded (FToken (txt "u") (txt "p")); ODecoded (FCreate 1 None); OBind 1 0; OServe 1 0].
Proof. vm_compute. reflexivity. Qed.
Example C07_nonvacuous_bad :
  let bs := fst (encode (FToken (txt "u") (txt "q"))) ++ fst (encode (FCreate 1 None)) in
  snd (run ex_creds (s_init ex_creds) [EvRead bs; EvDecode; EvDecode; EvWrite 100]) =
  [ORead bs; ORefused (FToken (txt "u") (txt "q")); OWrote (fst (encode refuse_frame)); OEnd FinRefused].
Proof. vm_compute. reflexivity. Qed.
Print Assumptions C07_auth_before_service.
Print Assumptions C07_refusal.

(* C08: the frames handed over (plus the one being handed over) are exactly
   those the routing rule prescribes, in arrival order. *)
Theorem C08_dispatch : forall c es st tr, run c (s_init c) es = (st, tr) ->
  handed tr ++ pending st = route (fun _ => None) tr.
Proof. exact dispatch. Qed.

(* C08: the frames processed are an initial part of the frames contained in the
   bytes received, and all of them whenever the loop is waiting for input. *)
Theorem C08_source : forall c es st tr, run c (s_init c) es = (st, tr) ->
  (exists more, frames (bytes_read tr) = decoded tr ++ more) /\
  (s_phase st = PSelect -> s_shut st = false -> frames (bytes_read tr) = decoded tr).
Proof. exact source. Qed.

(* C08: each handler receives what it was given, in order, nothing lost. *)
Theorem C08_fifo : forall c es st tr, run c (s_init c) es = (st, tr) ->
  forall h, got h tr ++ s_box st h = given h tr.
Proof. exact fifo. Qed.

(* C08: a handler belongs to one stream id and is given frames of that id only. *)
Theorem C08_isolation : forall c es st tr s h f,
  run c (s_init c) es = (st, tr) -> In (OBind s h) tr -> In f (given h tr) -> frame_sock f = s.
Proof. exact isolation. Qed.
Theorem C08_handler_unique : forall c es st tr s s' h,
  run c (s_init c) es = (st, tr) -> In (OBind s h) tr -> In (OBind s' h) tr -> s = s'.
Proof. exact handlers_unique. Qed.

(* C08: a frame is dropped only if its handler is gone. *)
Theorem C08_no_loss : forall c es st tr h f,
  run c (s_init c) es = (st, tr) -> In (ODrop h f) tr -> In (EvGone h) es.
Proof. exact drop_gone. Qed.

Definition no_creds := Creds None None.
Definition ex_wire := wire [FCreate 1 None; FCreate 3 None; FData 3 [9]; FData 1 [7]; FData 5 [1]; FClose 1 []].
Example C08_nonvacuous :
  let '(st, tr) := run no_creds (s_init no_creds)
     ([EvRead ex_wire] ++ repeat EvDecode 7 ++ [EvConsume 0]) in
  route (fun _ => None) tr = [(1, FData 3 [9]); (0, FData 1 [7]); (0, FClose 1 [])] /\
  got 0 tr = [FData 1 [7]] /\ s_box st 0 = [FClose 1 []] /\ s_phase st = PSelect.
Proof. vm_compute. repeat split. Qed.
Print Assumptions C08_dispatch.
Print Assumptions C08_source.
Print Assumptions C08_fifo.
Print Assumptions C08_isolation.
Print Assumptions C08_handler_unique.
Print Assumptions C08_no_loss.

(* C49 full statement: a stream whose handler does not read does not stop the
   other streams.  False: after the following (reachable) history stream 3 has a
   complete frame waiting in the receive buffer, but as long as the handler of
   stream 1 does not read, then whatever else happens - whatever other handlers,
   visitors and the network do - nothing is read, processed, handed over or
   written any more. *)
Definition stall_history : list ev :=
  EvRead (wire (FCreate 1 None :: FCreate 3 None :: repeat (FData 1 [7]) 11 ++ [FData 3 [8]]))
  :: repeat EvDecode 13.
Theorem C49_head_of_line_refuted :
  let st := fst (run no_creds (s_init no_creds) stall_history) in
  s_rbuf st = wire [FData 3 [8]] /\
  forall es, ~ In (EvConsume 0) es -> ~ In (EvGone 0) es ->
  forall o, In o (snd (run no_creds st es)) -> ~ tunnel_work o.
Proof.
  cbv zeta. split; [vm_compute; reflexivity|].
  intros es H1 H2. refine (proj2 (stalled no_creds es _ 0 (FData 1 [7]) _ _ _ H1 H2));
    vm_compute; (reflexivity || discriminate).
Qed.
(* In general: once a handler has ten unread frames and the next one arrives. *)
Theorem C49_stall_general : forall c es st h f,
  s_phase st = PBlocked h f -> gone h st = false -> handler_cap <= nlen (s_box st h) ->
  ~ In (EvConsume h) es -> ~ In (EvGone h) es ->
  s_phase (fst (run c st es)) = PBlocked h f /\
  (forall o, In o (snd (run c st es)) -> ~ tunnel_work o).
Proof. exact stalled. Qed.
(* Proved part: reading one frame is enough to go on. *)
Theorem C49_resume_partial : forall c st h f f0 q,
  s_phase st = PBlocked h f -> gone h st = false -> s_box st h = f0 :: q -> nlen q < handler_cap ->
  snd (run c st [EvConsume h; EvDecode]) = [OGot h f0; OPut h f] /\
  s_phase (fst (run c st [EvConsume h; EvDecode])) = PDecode.
Proof. exact unstall. Qed.
Example C49_nonvacuous :
  let st := fst (run no_creds (s_init no_creds) stall_history) in
  s_phase st = PBlocked 0 (FData 1 [7]) /\ gone 0 st = false /\ nlen (s_box st 0) = handler_cap.
Proof. vm_compute. repeat split. Qed.
Print Assumptions C49_head_of_line_refuted.
Print Assumptions C49_stall_general.
Print Assumptions C49_resume_partial.
