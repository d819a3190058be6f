(* C144: an accept error does not close the port. *)
From Coq Require Import Lia.
From Coq Require Import String.
From Verif Require Import Base Text TextOps AddrModel ProtModel IdModel CoreModel CoreSpec CoreProofs AcModel.
Open Scope N_scope.

(* what is left of a history without errors and datagrams *)
Definition plain (es : list acev) : list coev := flat_map (fun e => match e with AcEv e => [e] | _ => [] end) es.
(* errors only at the ports of the http and stream sections *)
Definition section_errors (e : acev) : Prop := match e with AcFail k => k = LWeb \/ k = LStream | _ => True end.
(* a server with one port, of kind k: connections and errors are there only *)
Definition only_port (k : lkind) (e : acev) : Prop :=
  match e with AcEv (CConn k' _) => k' = k | AcFail k' => k' = k | AcUdp => False | _ => True end.

Section Props.
  Context (cf : ccfg).

  Lemma acrun_app es : forall s es', acrun cf s (es ++ es') =
    let (s1, o1) := acrun cf s es in let (s2, o2) := acrun cf s1 es' in (s2, o1 ++ o2).
  Proof.
    induction es as [|e es IH]; intros s es'; cbn [acrun app].
    - destruct (acrun cf s es'); reflexivity.
    - destruct (acstep cf s e) as [s1 o1]. rewrite IH. destruct (acrun cf s1 es) as [s2 o2]. destruct (acrun cf s2 es') as [s3 o3]. now rewrite app_assoc.
  Qed.
  (* with all branches on, an event of CoreModel does what CoreModel says *)
  Lemma on_step c e : acstep cf (Ac c []) (AcEv e) = let (c', o) := costep cf c e in (Ac c' [], o).
  Proof.
    destruct e; try reflexivity. cbn [acstep off ac_off existsb ac_core]. cbn [costep].
    destruct (co_phase c) eqn:P; try reflexivity. destruct (take k (co_wait c)) as [[x w]|]; reflexivity.
  Qed.

  (* the ports of the http and stream sections: errors there have no effect at all, so that
     everything proved about the accept loop (C107-C110) holds with them *)
  Theorem C144_sections es : Forall section_errors es ->
    acrun cf ac0 es = (Ac (fst (corun cf core0 (plain es))) [], snd (corun cf core0 (plain es))).
  Proof.
    unfold ac0. generalize core0. induction es as [|e es IH]; intros c F; [reflexivity|]. inversion F as [|? ? H F']; subst. cbn [acrun].
    destruct e as [e|k|].
    - rewrite on_step. cbn [plain flat_map app]. fold (plain es). cbn [corun]. destruct (costep cf c e) as [c1 o1]. rewrite IH by exact F'.
      destruct (corun cf c1 (plain es)). reflexivity.
    - assert (E : acstep cf (Ac c []) (AcFail k) = (Ac c [], [])) by (cbn [acstep ac_core]; destruct H as [->| ->]; destruct (co_phase c); reflexivity).
      rewrite E, IH by exact F'. reflexivity.
    - assert (E : acstep cf (Ac c []) AcUdp = (Ac c [], [])) by (cbn [acstep ac_core]; destruct (co_phase c); reflexivity).
      rewrite E, IH by exact F'. reflexivity.
  Qed.

  (* C144, full statement: after an accept error the port goes on accepting.  False of the
     code for a server whose only port is one of the proxy section: after one error no
     connection is served there any more, for ever. *)
  Lemma take_only k k' : forall w, (forall x, In x w -> fst x = k) -> k' <> k -> take k' w = None.
  Proof.
    induction w as [|[k0 c0] w IH]; intros H N; [reflexivity|]. cbn [take]. assert (K := H _ (or_introl eq_refl)). cbn [fst] in K. rewrite (eqb_ne k0 k') by congruence.
    rewrite IH by (auto; intros x I; apply H; now right). reflexivity.
  Qed.
  Lemma take_sub k : forall w c w', take k w = Some (c, w') -> forall x, In x w' -> In x w.
  Proof.
    induction w as [|[k0 c0] w IH]; intros c w' E x I; [discriminate|]. cbn [take] in E. destruct (lkind_eqb k0 k).
    - injection E as _ <-. now right.
    - destruct (take k w) as [[y r]|] eqn:T; [|discriminate]. injection E as _ <-. destruct I as [<-|I]; [now left|]. right. eapply IH; eauto.
  Qed.
  Definition waits_at k (c : core) : Prop := forall x, In x (co_wait c) -> fst x = k.
  Lemma visitor_wait k c s : co_wait (fst (deal_visitor cf k c s)) = co_wait s.
  Proof. unfold deal_visitor. destruct (filter _ _) as [|[j n] l]; [reflexivity|]. destruct (calc_next_id _ _). reflexivity. Qed.
  Lemma waits_step k c e : waits_at k c -> (forall k' x, e = CConn k' x -> k' = k) -> waits_at k (fst (costep cf c e)).
  Proof.
    intros W C. destruct e; cbn [costep].
    - intros x I. cbn [fst with_wait co_wait] in I. apply in_app_iff in I. destruct I as [I|[<-|[]]]; [now apply W|]. apply (C _ _ eq_refl).
    - destruct (co_phase c); try exact W. destruct (take k0 (co_wait c)) as [[y w]|] eqn:T; [|exact W].
      assert (W' : forall x, In x w -> fst x = k) by (intros x I; apply W; eapply take_sub; eauto).
      unfold waits_at. destruct k0; cbn [fst]; rewrite ?visitor_wait; try exact W'.
      + unfold deal_client. destruct (cf_tunnel cf); [|exact W']. destruct (calc_next_id _ _). destruct (_ <=? _)%nat; exact W'.
      + destruct (cf_tls cf); [exact W'|]. unfold deal_center. destruct (cf_up cf); exact W'.
    - destruct (co_phase c); try exact W. destruct ok; [|exact W]. unfold deal_center. destruct (cf_up cf); exact W.
    - destruct (co_phase c); exact W.
    - destruct (co_queue c); [exact W|]. destruct (co_phase c); exact W.
    - destruct (_ && _); exact W.
    - exact W.
    - destruct (co_phase c); try exact W. destruct (co_stop c); exact W.
  Qed.
  Lemma waits_run k es : forall s, Forall (only_port k) es -> waits_at k (ac_core s) -> waits_at k (ac_core (fst (acrun cf s es))).
  Proof.
    induction es as [|e es IH]; intros s F W; [exact W|]. inversion F as [|? ? H F']; subst. cbn [acrun].
    assert (W1 : waits_at k (ac_core (fst (acstep cf s e)))).
    { destruct e as [e|k'|]; cbn [acstep].
      - assert (Q := waits_step k (ac_core s) e W ltac:(intros k' x ->; exact H)).
        destruct e; try (destruct (costep cf (ac_core s) _); exact Q).
        destruct (off k0 s); [exact W|]. destruct (co_phase (ac_core s)) eqn:P; try exact W. destruct (take k0 _); [|exact W]. destruct (costep cf _ _); exact Q.
      - destruct (co_phase _); try exact W. destruct (own_branch k'); [destruct (off k' s)|]; exact W.
      - destruct (co_phase _); exact W. }
    destruct (acstep cf s e) as [s1 o1]. specialize (IH s1 F' W1). destruct (acrun cf s1 es). exact IH.
  Qed.
  (* what the loop can still do: let go of tunnels and return *)
  Definition mute (o : coout) : bool := match o with XOver _ | XReturn => true | _ => false end.
  Lemma mute_settled k l : forallb mute l = true -> settled k l = [].
  Proof. induction l as [|o l IH]; intro H; [reflexivity|]. apply andb_true_iff in H. destruct H as [A B]. cbn [settled flat_map]. fold (settled k l). rewrite (IH B). destruct o; try discriminate A; reflexivity. Qed.
  Lemma deaf_step k s e : only_port k e -> own_branch k = true -> off k s = true -> waits_at k (ac_core s) ->
    (co_phase (ac_core s) = CListen \/ co_phase (ac_core s) = CEnd) ->
    let r := acstep cf s e in forallb mute (snd r) = true /\ off k (fst r) = true /\ (co_phase (ac_core (fst r)) = CListen \/ co_phase (ac_core (fst r)) = CEnd).
  Proof.
    intros O B F W P. destruct s as [c o]. cbn [ac_core] in *. destruct e as [e|k'|]; cbn [only_port] in O.
    - destruct e; cbn [acstep ac_core ac_off costep]; try (split; [reflexivity|]; split; [exact F|exact P]).
      + destruct (kind_dec k0 k) as [->|N].
        * rewrite F. split; [reflexivity|]. split; [exact F|exact P].
        * rewrite (take_only k k0 (co_wait c) W N). destruct (off k0 _); [split; [reflexivity|]; split; [exact F|exact P]|].
          assert (E : (match co_phase c with CListen => (Ac c o, @nil coout) | _ => (Ac c o, []) end) = (Ac c o, [])) by (destruct (co_phase c); reflexivity).
          rewrite E. split; [reflexivity|]. split; [exact F|exact P].
      + destruct P as [P|P]; rewrite P; cbn [fst snd ac_core]; (split; [reflexivity|]; split; [exact F|cbn; rewrite ?P; auto]).
      + destruct P as [P|P]; rewrite P; cbn [fst snd ac_core]; (split; [reflexivity|]; split; [exact F|cbn; rewrite ?P; auto]).
      + destruct (co_queue c); [split; [reflexivity|]; split; [exact F|exact P]|]. destruct P as [P|P]; rewrite P; (split; [reflexivity|]; split; [exact F|cbn; rewrite ?P; auto]).
      + destruct (_ && _); (split; [reflexivity|]; split; [exact F|exact P]).
      + destruct P as [P|P]; rewrite P; [destruct (co_stop c)|]; cbn [fst snd ac_core forallb mute andb with_phase co_phase]; (split; [reflexivity|]; split; [exact F|cbn; rewrite ?P; auto]).
    - subst k'. cbn [acstep ac_core]. rewrite B, F. destruct P as [P|P]; rewrite P; cbn [fst snd]; (split; [reflexivity|]; split; [exact F|cbn; rewrite ?P; auto]).
    - contradiction.
  Qed.
  Lemma deaf_run k es : forall s, Forall (only_port k) es -> own_branch k = true -> off k s = true -> waits_at k (ac_core s) ->
    (co_phase (ac_core s) = CListen \/ co_phase (ac_core s) = CEnd) -> forallb mute (snd (acrun cf s es)) = true.
  Proof.
    induction es as [|e es IH]; intros s O B F W P; [reflexivity|]. assert (O' := O). inversion O as [|? ? H O1]; subst.
    destruct (deaf_step k s e H B F W P) as (M & F1 & P1).
    assert (W1 : waits_at k (ac_core (fst (acstep cf s e)))).
    { assert (Q := waits_run k [e] s ltac:(constructor; [exact H|constructor]) W). cbn [acrun] in Q. destruct (acstep cf s e). exact Q. }
    cbn [acrun]. destruct (acstep cf s e) as [s1 o1]. cbn [fst snd] in *. specialize (IH s1 O1 B F1 W1 P1). destruct (acrun cf s1 es). cbn [snd] in *. now rewrite forallb_app, M, IH.
  Qed.
  Theorem C144_own_port_refuted k es1 es2 : k <> LWeb -> k <> LStream -> Forall (only_port k) (es1 ++ es2) ->
    co_phase (ac_core (fst (acrun cf ac0 es1))) = CListen ->
    settled k (snd (acrun cf (fst (acrun cf ac0 es1)) (AcFail k :: es2))) = [].
  Proof.
    intros B1 B2 O P. assert (B : own_branch k = true) by (destruct k; reflexivity || congruence).
    apply Forall_app in O. destruct O as [O1 O2]. apply mute_settled.
    assert (W := waits_run k es1 ac0 O1 ltac:(intros x [])). destruct (acrun cf ac0 es1) as [s o]. cbn [fst] in *.
    cbn [acrun]. assert (E : exists s', acstep cf s (AcFail k) = (s', []) /\ off k s' = true /\ ac_core s' = ac_core s).
    { cbn [acstep]. rewrite P, B. destruct (off k s) eqn:F; [exists s; auto|]. eexists. split; [reflexivity|]. split; [|reflexivity]. unfold off. cbn [ac_off existsb]. now rewrite eqb_refl_k. }
    destruct E as (s' & -> & F & C). assert (Q := deaf_run k es2 s' O2 B F ltac:(now rewrite C) ltac:(rewrite C; now left)).
    destruct (acrun cf s' es2). exact Q.
  Qed.

  (* what is left: the port is served again as soon as anything else completes a round, be
     it a connection at another port or a datagram, and a stop is obeyed throughout *)
  Theorem C144_resumes_partial s k c w k' : co_phase (ac_core s) = CListen -> off k' s = false -> take k' (co_wait (ac_core s)) = Some (c, w) ->
    let s1 := fst (acstep cf s (AcEv (CAccept k'))) in
    acstep cf s1 (AcEv (CAccept k)) = let (c', o) := costep cf (ac_core s1) (CAccept k) in (Ac c' [], o).
  Proof.
    intros P F T s1. assert (E : exists c1, s1 = Ac c1 []).
    { unfold s1. cbn [acstep]. rewrite F, P, T. destruct (costep cf _ _). now eexists. }
    destruct E as (c1 & ->). apply on_step.
  Qed.
  Theorem C144_datagram_partial s k : co_phase (ac_core s) = CListen ->
    acrun cf s [AcUdp; AcEv (CAccept k)] = let (c', o) := costep cf (ac_core s) (CAccept k) in (Ac c' [], o).
  Proof.
    intro P. cbn [acrun]. assert (E : acstep cf s AcUdp = (Ac (ac_core s) [], [])) by (cbn [acstep]; now rewrite P).
    rewrite E, on_step. destruct (costep cf _ _). cbn [app]. now rewrite app_nil_r.
  Qed.
  Theorem C144_stop s : snd (acstep cf s (AcEv CSeeStop)) = snd (costep cf (ac_core s) CSeeStop).
  Proof. cbn [acstep]. destruct (costep cf (ac_core s) CSeeStop). reflexivity. Qed.
End Props.

(* a server with a proxy port: the second connection is served if there was no error *)
Example C144_demo : let cf := CCfg false false false 7 in
  snd (acrun cf ac0 [AcEv (CConn LClient 1); AcEv (CAccept LClient); AcEv (CConn LClient 2); AcEv (CAccept LClient)]) = [XLocal 1; XLocal 2] /\
  snd (acrun cf ac0 [AcEv (CConn LClient 1); AcEv (CAccept LClient); AcFail LClient; AcEv (CConn LClient 2); AcEv (CAccept LClient)]) = [XLocal 1] /\
  snd (acrun cf ac0 [AcFail LClient; AcEv (CConn LClient 2); AcEv (CConn LWeb 3); AcEv (CAccept LWeb); AcEv (CAccept LClient)]) = [XServe LWeb 3; XLocal 2].
Proof. repeat split. Qed.
Example C144_section_demo : let cf := CCfg false false false 7 in
  snd (acrun cf ac0 [AcFail LWeb; AcEv (CConn LWeb 1); AcFail LStream; AcEv (CAccept LWeb)]) = [XServe LWeb 1].
Proof. reflexivity. Qed.

Print Assumptions C144_sections.
Print Assumptions C144_own_port_refuted.
Print Assumptions C144_resumes_partial.
Print Assumptions C144_datagram_partial.
Print Assumptions C144_stop.
