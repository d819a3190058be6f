(* The tunnel client: src/streams/center_client.rs inner_serve.

   Same style as CsModel: a small-step machine driven by an event list; the
   `biased` priority of select! is dropped (more behaviours). *)
From Coq Require Import String.
From Verif Require Import Base Text ProtModel CsModel.
Open Scope N_scope.

(* str::eq_ignore_ascii_case *)
Definition lower (c : N) : N := if (65 <=? c) && (c <=? 90) then c + 32 else c.
(* str::eq_ignore_ascii_case of std *)
Definition eq_ignore_case (a b : bytes) : bool := leqb (map lower a) (map lower b).
(* src/mapping/config.rs:62-64 *)
Definition is_proxy (m : mapping) : bool := eq_ignore_case (m_mode m) (txt "proxy").

(* center_client.rs:208-214: the last mapping whose domain or name is equal *)
Definition choose (ms : list mapping) (d : key) : option mapping :=
  last_match (fun m => leqb (m_domain m) d || leqb (m_name m) d) ms None.

(* Where the loop stands; KStuck is `sender.send(close).await` with the channel
   full: only this very loop could make room. *)
Inductive kfinish := KClosed | KError (e : perr) | KPanic.
(* the points of inner_serve (center_client.rs:143-308) at which it can be seen *)
Inductive kphase := KSelect | KDecode | KStuck (f : frame) | KEnd (r : kfinish).

Record kst := KSt {
  k_map : list (N * N);
  k_box : N -> list frame;
  k_gone : list N;
  k_work : list (N * option key * N);
  k_out : list frame;
  k_rbuf : bytes; k_wbuf : bytes;
  k_phase : kphase;
  k_maps : list mapping;            (* configured mappings, never changed *)
  k_conn : list (N * N);            (* pending connects: handler, stream id *)
  k_next : N
}.

Inductive keff :=
| QDecoded (f : frame)
| QBind (s h : N)
| QProxy (s h : N) (m : mapping)    (* the proxy serves the stream, rules of m *)
| QConnect (s h : N) (addr : N)     (* a connection to a local address is opened *)
| QNoAddr (s h : N)                 (* mapping without local address *)
| QReject (s : N)                   (* no mapping: a close for s is queued *)
| QPut (h : N) (f : frame)
| QLost (h : N) (f : frame)         (* try_send failed: handler full or gone *)
| QBye (h : N) (f : frame)
| QGot (h : N) (f : frame)
| QRead (b : bytes) | QWrote (b : bytes)
| QEnd (r : kfinish).

Inductive kev :=
| KOpen (s : N)                     (* deal_new_stream: a local visitor *)
| KData (s : N) (d : bytes)         (* a handler sends data *)
| KClose (s : N) (r : bytes)
| KConsume (h : N) | KGone (h : N)
| KConnErr (h : N)                  (* connecting failed *)
| KWork | KOut | KRead (b : bytes) | KReadErr | KWrite (n : N) | KWriteErr
| KStep.

(* record update *)
Definition kset_phase p st := KSt (k_map st) (k_box st) (k_gone st) (k_work st) (k_out st)
  (k_rbuf st) (k_wbuf st) p (k_maps st) (k_conn st) (k_next st).
(* record update *)
Definition kset_rbuf b st := KSt (k_map st) (k_box st) (k_gone st) (k_work st) (k_out st)
  b (k_wbuf st) (k_phase st) (k_maps st) (k_conn st) (k_next st).
(* record update *)
Definition kset_wbuf b st := KSt (k_map st) (k_box st) (k_gone st) (k_work st) (k_out st)
  (k_rbuf st) b (k_phase st) (k_maps st) (k_conn st) (k_next st).
(* record update *)
Definition kset_map m st := KSt m (k_box st) (k_gone st) (k_work st) (k_out st)
  (k_rbuf st) (k_wbuf st) (k_phase st) (k_maps st) (k_conn st) (k_next st).
(* record update *)
Definition kset_box h q st := KSt (k_map st) (fun x => if x =? h then q else k_box st x)
  (k_gone st) (k_work st) (k_out st)
  (k_rbuf st) (k_wbuf st) (k_phase st) (k_maps st) (k_conn st) (k_next st).
(* record update *)
Definition kset_gone g st := KSt (k_map st) (k_box st) g (k_work st) (k_out st)
  (k_rbuf st) (k_wbuf st) (k_phase st) (k_maps st) (k_conn st) (k_next st).
(* record update *)
Definition kset_work w st := KSt (k_map st) (k_box st) (k_gone st) w (k_out st)
  (k_rbuf st) (k_wbuf st) (k_phase st) (k_maps st) (k_conn st) (k_next st).
(* record update *)
Definition kset_out o st := KSt (k_map st) (k_box st) (k_gone st) (k_work st) o
  (k_rbuf st) (k_wbuf st) (k_phase st) (k_maps st) (k_conn st) (k_next st).
(* record update *)
Definition kset_conn cn st := KSt (k_map st) (k_box st) (k_gone st) (k_work st) (k_out st)
  (k_rbuf st) (k_wbuf st) (k_phase st) (k_maps st) cn (k_next st).
(* one more handler: a number for the next channel made (center_client.rs:221) *)
Definition kfresh st := KSt (k_map st) (k_box st) (k_gone st) (k_work st) (k_out st)
  (k_rbuf st) (k_wbuf st) (k_phase st) (k_maps st) (k_conn st) (k_next st + 1).

(* center_client.rs:143-152: a token only when both credentials are set, then the
   mappings.  Result: bytes in the send buffer; an error ends inner_serve. *)
Definition hello (c : creds) (ms : list mapping) : wr :=
  wseq (match c_user c, c_pass c with Some u, Some p => encode (FToken u p) | _, _ => ([], None) end)
       (match ms with [] => ([], None) | _ => encode (FMapping 0 ms) end).

(* center_client.rs:136-152: the state when the loop starts *)
Definition k_init (c : creds) (ms : list mapping) : kst :=
  let h := hello c ms in
  KSt [] (fun _ => []) [] [] [] [] (fst h)
      (match snd h with None => KSelect | Some e => KEnd (KError e) end) ms [] 0.

(* the receiver of this channel was dropped: its task is over *)
Definition kgone (h : N) (st : kst) : bool := existsb (N.eqb h) (k_gone st).

(* try_send (center_client.rs:277-288): immediate, lost when full or closed *)
Definition ktry_send (h : N) (f : frame) (st : kst) : kst * list keff :=
  if kgone h st || negb (nlen (k_box st h) <? handler_cap) then (st, [QLost h f])
  else (kset_box h (k_box st h ++ [f]) st, [QPut h f]).

(* center_client.rs:205-291: one decoded frame *)
Definition khandle (f : frame) (st : kst) : kst * list keff :=
  match f with
  | FCreate s dom =>
    let d := match dom with Some d => d | None => [] end in
    match choose (k_maps st) d with
    | None =>
      if nlen (k_out st) <? out_cap
      then (kset_out (k_out st ++ [FClose s []]) st, [QDecoded f; QReject s])
      else (kset_phase (KStuck (FClose s [])) st, [QDecoded f])
    | Some m =>
      let h := k_next st in
      let st1 := kfresh (kset_map (insert N.eqb s h (k_map st)) st) in
      if is_proxy m then (st1, [QDecoded f; QBind s h; QProxy s h m])
      else match m_local m with
           | None => (kset_gone (h :: k_gone st1) st1, [QDecoded f; QBind s h; QNoAddr s h])
           | Some a => (kset_conn ((h, s) :: k_conn st1) st1,
                        [QDecoded f; QBind s h; QConnect s h a])
           end
    end
  | FData s _ =>
    match lookup N.eqb s (k_map st) with
    | Some h => let '(st', es) := ktry_send h f st in (st', QDecoded f :: es)
    | None => (st, [QDecoded f])
    end
  | FClose s _ =>
    if s =? 0 then (st, [QDecoded f])
    else match lookup N.eqb s (k_map st) with
         | Some h => let '(st', es) := ktry_send h f st in (st', QDecoded f :: es)
         | None => (st, [QDecoded f])
         end
  | FMapping _ _ => (st, [QDecoded f])
  | FToken _ _ => (kset_phase (KEnd KPanic) st, [QDecoded f; QEnd KPanic])
  end.

(* center_client.rs:302-306 *)
Fixpoint ksay_bye (m : list (N * N)) (st : kst) : kst * list keff :=
  match m with
  | [] => (st, [])
  | (s, h) :: m' =>
    let f := FClose s [] in
    if kgone h st || negb (nlen (k_box st h) <? handler_cap) then ksay_bye m' st
    else let '(st', es) := ksay_bye m' (kset_box h (k_box st h ++ [f]) st) in
         (st', QBye h f :: es)
  end.
(* center_client.rs:302-308 *)
Definition ktunnel_closed (st : kst) : kst * list keff :=
  let '(st', es) := ksay_bye (k_map st) st in
  (kset_phase (KEnd KClosed) st', es ++ [QEnd KClosed]).

Definition kstep (st : kst) (e : kev) : kst * list keff :=
  match e with
  (* center_client.rs:371-387 deal_new_stream *)
  | KOpen s =>
    if nlen (k_work st) <? work_cap
    then (kfresh (kset_work (k_work st ++ [(s, None, k_next st)]) st), [])
    else (st, [])
  | KData s d =>
    if nlen (k_out st) <? out_cap then (kset_out (k_out st ++ [FData s d]) st, []) else (st, [])
  | KClose s r =>
    if nlen (k_out st) <? out_cap then (kset_out (k_out st ++ [FClose s r]) st, []) else (st, [])
  | KConsume h =>
    match k_box st h with
    | f :: q => if kgone h st then (st, []) else (kset_box h q st, [QGot h f])
    | [] => (st, [])
    end
  | KGone h => (kset_gone (h :: k_gone st) st, [])
  (* center_client.rs:263-274: the failed connect drops the receiver and sends a close *)
  | KConnErr h =>
    match lookup N.eqb h (k_conn st) with
    | Some s =>
      if nlen (k_out st) <? out_cap
      then (kset_out (k_out st ++ [FClose s []])
             (kset_gone (h :: k_gone st) (kset_conn (remove N.eqb h (k_conn st)) st)), [])
      else (st, [])
    | None => (st, [])
    end
  | KStep =>
    match k_phase st with
    | KDecode =>
      match decode_frame (k_rbuf st) with
      | DWait => (kset_phase KSelect st, [])
      | DFrame f rest => khandle f (kset_rbuf rest st)
      | DFail e rest => (kset_phase (KEnd (KError e)) (kset_rbuf rest st), [QEnd (KError e)])
      | DPanic => (kset_phase (KEnd KPanic) st, [QEnd KPanic])
      end
    | KStuck f =>
      if nlen (k_out st) <? out_cap
      then (kset_phase KDecode (kset_out (k_out st ++ [f]) st), [QReject (frame_sock f)])
      else (st, [])
    | _ => (st, [])
    end
  | KWork =>
    match k_phase st, k_work st with
    | KSelect, (s, d, h) :: w =>
      (kset_phase KDecode (kset_wbuf (k_wbuf st ++ fst (encode (FCreate s d)))
         (kset_map (insert N.eqb s h (k_map st)) (kset_work w st))), [QBind s h])
    | _, _ => (st, [])
    end
  | KOut =>
    match k_phase st, k_out st with
    | KSelect, f :: o =>
      (kset_phase KDecode (kset_wbuf (k_wbuf st ++ fst (encode f)) (kset_out o st)), [])
    | _, _ => (st, [])
    end
  | KRead b =>
    match k_phase st, b with
    | KSelect, [] => ktunnel_closed st
    | KSelect, _ => (kset_phase KDecode (kset_rbuf (k_rbuf st ++ b) st), [QRead b])
    | _, _ => (st, [])
    end
  | KReadErr => match k_phase st with KSelect => ktunnel_closed st | _ => (st, []) end
  | KWrite n =>
    match k_phase st, k_wbuf st with
    | KSelect, _ :: _ =>
      let k := N.to_nat (N.min n (nlen (k_wbuf st))) in
      (kset_phase KDecode (kset_wbuf (skipn k (k_wbuf st)) st), [QWrote (firstn k (k_wbuf st))])
    | _, _ => (st, [])
    end
  (* only logged *)
  | KWriteErr =>
    match k_phase st, k_wbuf st with
    | KSelect, _ :: _ => (kset_phase KDecode st, [])
    | _, _ => (st, [])
    end
  end.

(* model only: the steps of a whole event list *)
Fixpoint krun (st : kst) (es : list kev) : kst * list keff :=
  match es with
  | [] => (st, [])
  | e :: es' => let '(st1, o1) := kstep st e in
                let '(st2, o2) := krun st1 es' in (st2, o1 ++ o2)
  end.
