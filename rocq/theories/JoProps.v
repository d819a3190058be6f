(* C89: the two ends of a stream, over whole histories of client and server. *)
From Coq Require Import String.
From Verif Require Import Base Text ProtModel ProtSpec CsModel CsSpec CcModel CcSpec
  TunSpec TunServer TunClient TunProofs TunMore TunFlow TunProps JoSpec JoProofs.
Open Scope N_scope.

(* C89: what the first visitor of a stream number receives is an initial part of
   what the local service sent on it, if local services speak only on streams they
   were given. *)
Theorem C89_visitor_all : forall c ms w, whole c ms w ->
  forall a s h b, seen c w = a ++ OBind s h :: b -> (forall h', ~ In (OBind s h') a) ->
  replies_only c ms s w -> ~ In (KOpen s) (kevs w) ->
  prefix (payload s (got h (seen c w))) (service_bytes s (k_init c ms) (kevs w)).
Proof.
  intros c ms w W a s h b E Ha Hr Hk.
  apply (C89_visitor_gets _ _ _ _ _ _ _ _ (whole_tunnel _ _ _ W) a s h b E).
  exact (early_silent c ms w s a h b W E Ha Hr Hk).
Qed.
(* What the local service receives is an initial part of what the visitor sent, if
   the stream number has one visitor, requests of visitors leave before data, and
   the client dropped nothing on a full queue (see C11). *)
Theorem C89_service_all_partial : forall c ms w, whole c ms w ->
  forall a s h b, kseen c ms w = a ++ QBind s h :: b -> ~ In (KOpen s) (kevs w) ->
  creates_first c w -> once s w -> (forall f, ~ In (QLost h f) (kseen c ms w)) ->
  prefix (payload s (kgot h (kseen c ms w))) (visitor_bytes c s (s_init c) (evs w)).
Proof.
  intros c ms w W a s h b E Hk Hf Ho Hl.
  apply (C89_service_gets_partial _ _ _ _ _ _ _ _ (whole_tunnel _ _ _ W) a s h b E); [|exact Hl].
  exact (early_silent_client c ms w s a h b W E Hk Hf Ho).
Qed.
Print Assumptions C89_visitor_all.
Print Assumptions C89_service_all_partial.

(* The session of TunProps, as one history. *)
Definition ex_w : list jev :=
  map AtClient (firstn 2 ex_kes) ++ map AtServer (firstn 13 ex_es) ++
  map AtClient (skipn 2 ex_kes) ++ map AtServer (skipn 13 ex_es).

Fixpoint starts_with (a b : bytes) : bool :=
  match a, b with
  | [], _ => true
  | x :: a', y :: b' => (x =? y) && starts_with a' b'
  | _, _ => false
  end.
Lemma starts_with_ok a : forall b, starts_with a b = true -> prefix a b.
Proof.
  induction a as [|x a IH]; intros b H; [exists b; reflexivity|].
  destruct b as [|y b]; [discriminate|]. cbn in H. apply andb_true_iff in H as [H1 H2].
  apply N.eqb_eq in H1. subst y. destruct (IH b H2) as [m ->]. exists m. reflexivity.
Qed.
Lemma causal_check c ms w : forallb (fun n =>
    starts_with (bytes_read (seen c (firstn n w))) (kwritten (kseen c ms (firstn n w))) &&
    starts_with (kbytes_read (kseen c ms (firstn n w))) (written (seen c (firstn n w)))) (seq 0 (S (List.length w))) = true ->
  causal c ms w.
Proof.
  intros H p q E. rewrite forallb_forall in H.
  assert (P : firstn (List.length p) w = p).
  { rewrite E, firstn_app, Nat.sub_diag, firstn_all. apply app_nil_r. }
  specialize (H (List.length p)). rewrite P in H.
  assert (I : In (List.length p) (seq 0 (S (List.length w)))).
  { apply in_seq. rewrite E, app_length. lia. }
  apply H in I. apply andb_true_iff in I as [I1 I2]. split; apply starts_with_ok; assumption.
Qed.
Lemma ex_whole : whole ex_c ex_ms ex_w.
Proof.
  pose proof ex_tunnel as T. destruct (krun (k_init ex_c ex_ms) ex_kes) as [kst ktr].
  destruct (run ex_c (s_init ex_c) ex_es) as [st tr]. destruct T as [_ _ _ _ A B C D].
  constructor; try assumption. apply causal_check. vm_compute. reflexivity.
Qed.
Lemma at_check (P : list jev -> jev -> bool) w :
  forallb (fun n => match nth_error w n with Some j => P (firstn n w) j | None => true end) (seq 0 (List.length w)) = true ->
  forall p j q, w = p ++ j :: q -> P p j = true.
Proof.
  intros H p j q E. rewrite forallb_forall in H.
  assert (I : In (List.length p) (seq 0 (List.length w))).
  { apply in_seq. rewrite E, app_length. cbn. lia. }
  apply H in I. rewrite E in I. rewrite nth_error_app2 in I by lia. rewrite Nat.sub_diag in I. cbn [nth_error] in I.
  rewrite firstn_app, Nat.sub_diag, firstn_all, app_nil_r in I. exact I.
Qed.
Lemma ex_replies : replies_only ex_c ex_ms 1 ex_w.
Proof.
  intros p d q E.
  pose proof (at_check (fun p j => match j with
    | AtClient (KData 1 _) => existsb (fun e => match e with QBind 1 _ => true | _ => false end) (kseen ex_c ex_ms p)
    | _ => true end) ex_w) as K.
  assert (G := K ltac:(vm_compute; reflexivity) p _ q E). cbn beta iota in G.
  apply existsb_exists in G as (e & He & H). destruct e; try discriminate.
  exists h. destruct s as [|[| |]]; try discriminate. exact He.
Qed.
Lemma first_check c w : forallb (fun n => match nth_error w n with
    | Some (AtServer EvOut) => match s_work (fst (run c (s_init c) (evs (firstn n w)))) with [] => true | _ => false end
    | _ => true end) (seq 0 (List.length w)) = true -> creates_first c w.
Proof.
  intros H p q E.
  pose proof (at_check (fun p j => match j with
    | AtServer EvOut => match s_work (fst (run c (s_init c) (evs p))) with [] => true | _ => false end
    | _ => true end) w) as K.
  specialize (K H p _ q E). cbn beta iota in K.
  destruct (s_work (fst (run c (s_init c) (evs p)))); [reflexivity|discriminate].
Qed.
Lemma once_check s w : (forall p v q, evs w = p ++ EvVisit s v :: q ->
    forallb (fun e => match e with EvVisit s' _ => negb (s' =? s) | _ => true end) q = true) -> once s w.
Proof.
  intros H p v q v' E I. specialize (H p v q E). rewrite forallb_forall in H. apply H in I.
  rewrite N.eqb_refl in I. discriminate.
Qed.
Example C89_all_demo : exists a b a' b',
  seen ex_c ex_w = a ++ OBind 1 0 :: b /\ (forall h', ~ In (OBind 1 h') a) /\
  replies_only ex_c ex_ms 1 ex_w /\ ~ In (KOpen 1) (kevs ex_w) /\
  payload 1 (got 0 (seen ex_c ex_w)) = [111; 107] /\
  kseen ex_c ex_ms ex_w = a' ++ QBind 1 0 :: b' /\ creates_first ex_c ex_w /\ once 1 ex_w /\
  (forall f, ~ In (QLost 0 f) (kseen ex_c ex_ms ex_w)) /\
  payload 1 (kgot 0 (kseen ex_c ex_ms ex_w)) = [72; 105].
Proof.
  exists (firstn 4 (seen ex_c ex_w)), (skipn 5 (seen ex_c ex_w)),
    (firstn 3 (kseen ex_c ex_ms ex_w)), (skipn 4 (kseen ex_c ex_ms ex_w)).
  split; [vm_compute; reflexivity|].
  split. { intros h'. vm_compute. intuition discriminate. }
  split; [exact ex_replies|].
  split. { vm_compute. intuition discriminate. }
  split; [vm_compute; reflexivity|].
  split; [vm_compute; reflexivity|].
  split; [apply first_check; vm_compute; reflexivity|].
  split.
  { apply once_check. intros p v q E.
    do 5 (destruct p as [|? p]; [try discriminate E; injection E as <- <-; vm_compute; reflexivity|cbn [app] in E; injection E as _ E]).
    exfalso. apply (f_equal (existsb (fun e => match e with EvVisit 1 _ => true | _ => false end))) in E.
    rewrite existsb_app in E. cbn [existsb] in E. rewrite orb_true_r in E. vm_compute in E. discriminate. }
  split; [|vm_compute; reflexivity].
  intros f. vm_compute. intuition discriminate.
Qed.

(* Without that order it fails: if data of the stream leaves before the request of
   its visitor, which happens when both are queued between the two looks of the
   server at its queues, the client has no place for it, and the local service
   starts in the middle. *)
Definition hole : bytes := wire [FData 1 [72]; FCreate 1 (Some (txt "w.com")); FData 1 [105]].
Definition hole_w : list jev :=
  map AtClient [KWrite 1000; KStep] ++
  map AtServer [EvRead up1; EvDecode; EvDecode; EvDecode; EvVisit 1 (VHttp (txt "w.com"));
     EvData 1 [72]; EvOut; EvDecode; EvWork; EvDecode; EvData 1 [105]; EvOut; EvDecode; EvWrite 1000; EvDecode] ++
  map AtClient [KRead hole; KStep; KStep; KStep; KStep; KConsume 0].
Theorem C89_service_refuted : exists c ms w s h a b, whole c ms w /\ kseen c ms w = a ++ QBind s h :: b /\
  ~ In (KOpen s) (kevs w) /\ once s w /\ (forall f, ~ In (QLost h f) (kseen c ms w)) /\
  ~ prefix (payload s (kgot h (kseen c ms w))) (visitor_bytes c s (s_init c) (evs w)).
Proof.
  exists ex_c, ex_ms, hole_w, 1, 0, (firstn 4 (kseen ex_c ex_ms hole_w)), (skipn 5 (kseen ex_c ex_ms hole_w)).
  split.
  { pose proof ex_tunnel as T. destruct (krun (k_init ex_c ex_ms) ex_kes) as [kst ktr].
    destruct (run ex_c (s_init ex_c) ex_es) as [st tr]. destruct T as [_ _ _ _ A B _ _].
    constructor; try assumption.
    - apply causal_check. vm_compute. reflexivity.
    - unfold hole_w. rewrite !kevs_app. repeat (apply Forall_app; split);
        repeat (apply Forall_cons; [cbn [kev_ok fits]; unfold short_string; all_ok|]); apply Forall_nil.
    - unfold hole_w. rewrite !evs_app. repeat (apply Forall_app; split);
        repeat (apply Forall_cons; [cbn [ev_ok fits]; unfold short_string; all_ok|]); apply Forall_nil. }
  split; [vm_compute; reflexivity|].
  split. { vm_compute. intuition discriminate. }
  split.
  { apply once_check. intros p v q E.
    do 5 (destruct p as [|? p]; [try discriminate E; injection E as <- <-; vm_compute; reflexivity|cbn [app] in E; injection E as _ E]).
    exfalso. apply (f_equal (existsb (fun e => match e with EvVisit 1 _ => true | _ => false end))) in E.
    rewrite existsb_app in E. cbn [existsb] in E. rewrite orb_true_r in E. vm_compute in E. discriminate. }
  split. { intros f. vm_compute. intuition discriminate. }
  intros [m E]. vm_compute in E. discriminate.
Qed.
Print Assumptions C89_service_refuted.
