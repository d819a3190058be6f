(* Nodes in the middle of a tunnel: properties C162 to C164. *)
From Coq Require Import String.
From Verif Require Import Base Text TextOps AddrModel ProtModel ProtSpec ProtProps CoreModel CoreProps MdModel MdProofs.
Open Scope N_scope.

(* ---- what the statements speak of ------------------------------------------------- *)
(* the bytes a sender has sent: what it wrote before it ended *)
Fixpoint said (es : list pev) : bytes :=
  match es with
  | [] => []
  | ESend b :: es' => b ++ said es'
  | EFin :: _ => []
  | _ :: es' => said es'
  end.
(* what happened on the way up, from the client to the server, and on the way down *)
Definition ups (es : list cev) : list pev := flat_map (fun e => match e with CUp x => [x] | _ => [] end) es.
Definition downs (es : list cev) : list pev := flat_map (fun e => match e with CDown x => [x] | _ => [] end) es.
(* one of the k nodes has broken *)
Definition broken (k : nat) (es : list cev) : Prop := exists i, (i < k)%nat /\ In (CBreak i) es.
(* everything but the two senders *)
Definition moves (e : pev) : Prop := match e with ESend _ | EFin => False | _ => True end.
(* nothing is left to do for nodes and receivers *)
Definition rest (room : N) (c : chain) : Prop := forall e, moves e -> cstep room c (CUp e) = c /\ cstep room c (CDown e) = c.

(* ---- from the chain to its two directions ------------------------------------------ *)
Section Md.
  Context (room : N).

  Definition not_die (e : pev) : bool := match e with ENode _ ODie => false | _ => true end.
  Definition up_of (k : nat) (e : cev) : list pev :=
    match e with CUp x => if not_die x then [x] else [] | CBreak i => if (i <? k)%nat then [ENode i ODie] else [] | CDown _ => [] end.
  Definition down_of (k : nat) (e : cev) : list pev :=
    match e with CDown x => if not_die x then [x] else [] | CBreak i => if (i <? k)%nat then [ENode (k - 1 - i) ODie] else [] | CUp _ => [] end.

  Lemma pstep_length p e : length (pp_stages (pstep room p e)) = length (pp_stages p).
  Proof.
    destruct e as [b| |i o|n|]; cbn [pstep].
    - destruct (pp_end p); reflexivity.
    - reflexivity.
    - pose proof (act_length room i o (pp_q p) (pp_end p) (pp_stages p)) as H. destruct (act room i o _ _ _). exact H.
    - destruct (last_q (pp_q p) (pp_end p) (pp_stages p)) as [x e]. destruct ((0 <? n) && (n <=? nlen x) && negb (pp_over p)); [|reflexivity].
      pose proof (set_last_length (pp_stages p) (skipn (N.to_nat n) x) (pp_q p)) as H. destruct (set_last _ _ _). exact H.
    - destruct (last_q (pp_q p) (pp_end p) (pp_stages p)) as [x e]. destruct (e && (nlen x =? 0)); reflexivity.
  Qed.
  Lemma prun_length : forall es p, length (pp_stages (prun room p es)) = length (pp_stages p).
  Proof. induction es as [|e es IH]; intros p; cbn [prun fold_left]; [reflexivity|]. unfold prun in IH. rewrite IH. apply pstep_length. Qed.

  Lemma cstep_split k c e : length (pp_stages (ch_up c)) = k ->
    cstep room c e = Chain (prun room (ch_up c) (up_of k e)) (prun room (ch_down c) (down_of k e)).
  Proof.
    intros H. destruct c as [u d]. cbn [ch_up ch_down] in *. destruct e as [x|x|i]; cbn [cstep up_of down_of].
    - destruct x as [b| |i [n| |n| |]|n|]; reflexivity.
    - destruct x as [b| |i [n| |n| |]|n|]; reflexivity.
    - cbn [ch_up ch_down]. rewrite H. destruct (i <? k)%nat; reflexivity.
  Qed.
  Lemma prun_app p a b : prun room p (a ++ b) = prun room (prun room p a) b.
  Proof. apply fold_left_app. Qed.
  Lemma crun_split k : forall es c, length (pp_stages (ch_up c)) = k ->
    crun room c es = Chain (prun room (ch_up c) (flat_map (up_of k) es)) (prun room (ch_down c) (flat_map (down_of k) es)).
  Proof.
    induction es as [|e es IH]; intros c H; cbn [crun fold_left flat_map]; [destruct c; reflexivity|].
    unfold crun in IH. rewrite (cstep_split k _ _ H). rewrite IH; cbn [ch_up ch_down]; [rewrite !prun_app; reflexivity|].
    rewrite prun_length. exact H.
  Qed.
  Lemma run0 k es : crun room (chain0 k) es = Chain (prun room (pipe0 k) (flat_map (up_of k) es)) (prun room (pipe0 k) (flat_map (down_of k) es)).
  Proof. apply crun_split. cbn. apply repeat_length. Qed.

  Lemma said_up k : forall es, said (flat_map (up_of k) es) = said (ups es).
  Proof.
    induction es as [|e es IH]; [reflexivity|]. unfold ups in *. cbn [flat_map].
    destruct e as [x|x|i]; cbn [up_of app].
    - destruct x as [b| |i [n| |n| |]|n|]; cbn [not_die app said]; rewrite ?IH; reflexivity.
    - exact IH.
    - destruct (i <? k)%nat; cbn [app said]; exact IH.
  Qed.
  Lemma said_down k : forall es, said (flat_map (down_of k) es) = said (downs es).
  Proof.
    induction es as [|e es IH]; [reflexivity|]. unfold downs in *. cbn [flat_map].
    destruct e as [x|x|i]; cbn [down_of app].
    - exact IH.
    - destruct x as [b| |i [n| |n| |]|n|]; cbn [not_die app said]; rewrite ?IH; reflexivity.
    - destruct (i <? k)%nat; cbn [app said]; exact IH.
  Qed.
  Lemma pend_keeps p e : pp_end p = true -> pp_end (pstep room p e) = true.
  Proof.
    intros H. destruct e as [b| |i o|n|]; cbn [pstep]; rewrite ?H; auto.
    - destruct (act room i o (pp_q p) true (pp_stages p)). exact H || reflexivity.
    - destruct (last_q _ _ _) as [x e]. destruct (_ && _ && _); [destruct (set_last _ _ _)|]; auto.
    - destruct (last_q _ _ _) as [x e]. destruct (_ && _); auto.
  Qed.
  Lemma pend_same p e : e <> EFin -> pp_end (pstep room p e) = pp_end p.
  Proof.
    intros H. destruct e as [b| |i o|n|]; cbn [pstep]; try congruence.
    - destruct (pp_end p) eqn:E; [exact E | reflexivity].
    - destruct (act room i o (pp_q p) (pp_end p) (pp_stages p)). reflexivity.
    - destruct (last_q _ _ _) as [x e]. destruct (_ && _ && _); [destruct (set_last _ _ _)|]; auto.
    - destruct (last_q _ _ _) as [x e]. destruct (_ && _); auto.
  Qed.
  Lemma fed_ended : forall es p, pp_end p = true -> fed room p es = [].
  Proof.
    induction es as [|e es IH]; intros p H; cbn [fed]; [reflexivity|]. rewrite IH by (apply pend_keeps, H).
    destruct e; cbn [new_sent]; rewrite ?H; reflexivity.
  Qed.
  Lemma fed_said : forall es p, pp_end p = false -> fed room p es = said es.
  Proof.
    induction es as [|e es IH]; intros p H; cbn [fed said]; [reflexivity|].
    destruct e as [b| |i o|n|]; cbn [new_sent app]; rewrite ?H.
    - rewrite IH; [reflexivity|]. rewrite pend_same by discriminate. exact H.
    - apply fed_ended. reflexivity.
    - apply IH. rewrite pend_same by discriminate. exact H.
    - apply IH. rewrite pend_same by discriminate. exact H.
    - apply IH. rewrite pend_same by discriminate. exact H.
  Qed.
  Lemma pend_fin : forall es p, pp_end (prun room p es) = true <-> pp_end p = true \/ In EFin es.
  Proof.
    induction es as [|e es IH]; intros p; cbn [prun fold_left]; [cbn; tauto|]. unfold prun in IH. rewrite IH. cbn [In].
    destruct e as [b| |i o|n|]; try (rewrite pend_same by discriminate; intuition congruence).
    cbn [pstep pp_end]. tauto.
  Qed.

  Lemma good_run k es : good (said es) (prun room (pipe0 k) es).
  Proof. pose proof (run_good room es [] (pipe0 k) (good0 k)) as H. rewrite (fed_said es (pipe0 k) eq_refl) in H. exact H. Qed.

  (* ---- which nodes are dead ---- *)
  Lemma alive_step p e : not_die e = true -> alive (pp_stages p) -> alive (pp_stages (pstep room p e)).
  Proof.
    intros N A. destruct e as [b| |i o|n|]; cbn [pstep].
    - destruct (pp_end p); exact A.
    - exact A.
    - pose proof (act_alive room i o (pp_q p) (pp_end p) (pp_stages p)) as H. destruct (act room i o _ _ _). apply H; [|exact A]. destruct o; discriminate.
    - destruct (last_q (pp_q p) (pp_end p) (pp_stages p)) as [x e]. destruct ((0 <? n) && (n <=? nlen x) && negb (pp_over p)); [|exact A].
      pose proof (set_last_dead (pp_stages p) (skipn (N.to_nat n) x) (pp_q p)) as H. destruct (set_last _ _ _) as [q l]. cbn [pp_stages snd] in *.
      unfold alive in *. rewrite <- Forall_map with (f := sg_dead) (P := fun d => d = false) in A |- *. rewrite H. exact A.
    - destruct (last_q (pp_q p) (pp_end p) (pp_stages p)) as [x e]. destruct (e && (nlen x =? 0)); exact A.
  Qed.
  Lemma dead_step p e : Exists (fun s => sg_dead s = true) (pp_stages p) -> Exists (fun s => sg_dead s = true) (pp_stages (pstep room p e)).
  Proof.
    intros A. destruct e as [b| |i o|n|]; cbn [pstep].
    - destruct (pp_end p); exact A.
    - exact A.
    - pose proof (act_dead room i o (pp_q p) (pp_end p) (pp_stages p) A) as H. destruct (act room i o _ _ _). exact H.
    - destruct (last_q (pp_q p) (pp_end p) (pp_stages p)) as [x e]. destruct ((0 <? n) && (n <=? nlen x) && negb (pp_over p)); [|exact A].
      pose proof (set_last_dead (pp_stages p) (skipn (N.to_nat n) x) (pp_q p)) as H. destruct (set_last _ _ _) as [q l]. cbn [pp_stages snd] in *.
      rewrite <- Exists_map with (f := sg_dead) (P := fun d => d = true) in A |- *. rewrite H. exact A.
    - destruct (last_q (pp_q p) (pp_end p) (pp_stages p)) as [x e]. destruct (e && (nlen x =? 0)); exact A.
  Qed.
  Lemma alive_run : forall es p, Forall (fun e => not_die e = true) es -> alive (pp_stages p) -> alive (pp_stages (prun room p es)).
  Proof.
    induction es as [|e es IH]; intros p F A; cbn [prun fold_left]; [exact A|]. inversion F; subst. apply IH; auto. apply alive_step; auto.
  Qed.
  Lemma dead_keeps : forall es p, Exists (fun s => sg_dead s = true) (pp_stages p) -> Exists (fun s => sg_dead s = true) (pp_stages (prun room p es)).
  Proof. induction es as [|e es IH]; intros p A; cbn [prun fold_left]; [exact A|]. apply IH, dead_step, A. Qed.
  Lemma dead_run es p i : (i < length (pp_stages p))%nat -> In (ENode i ODie) es -> Exists (fun s => sg_dead s = true) (pp_stages (prun room p es)).
  Proof.
    intros Hi H. apply in_split in H as (a & b & ->). rewrite prun_app. cbn [prun fold_left]. apply dead_keeps. cbn [pstep].
    rewrite <- (prun_length a p) in Hi. set (p' := prun room p a) in *. fold (prun room p a). fold p'.
    pose proof (act_dies room i (pp_q p') (pp_end p') (pp_stages p') Hi) as H. destruct (act room i ODie _ _ _). exact H.
  Qed.
  Lemma alive0 k : alive (pp_stages (pipe0 k)).
  Proof. cbn. unfold alive. rewrite Forall_forall. intros s H. apply repeat_spec in H. subst s. reflexivity. Qed.

  (* ---- a pipe at rest ---- *)
  Definition prest (p : pipe) : Prop := forall e, moves e -> not_die e = true -> pstep room p e = p.

  Lemma prest_still p : prest p -> still_l room (pp_q p) (pp_end p) (pp_stages p).
  Proof.
    intros H i o Ho. specialize (H (ENode i o) I). cbn [pstep] in H. destruct (act room i o _ _ _) as [q l].
    assert (E : not_die (ENode i o) = true) by (destruct o; try reflexivity; congruence). specialize (H E). destruct p. cbn in *. injection H as -> ->. reflexivity.
  Qed.
  Lemma prest_last p T : good T p -> prest p -> fst (last_q (pp_q p) (pp_end p) (pp_stages p)) = [].
  Proof.
    intros (O & W & V) H. destruct (pp_over p) eqn:Ov; [rewrite V; reflexivity|].
    specialize (H (ETake 1) I eq_refl). cbn [pstep] in H. destruct (last_q (pp_q p) (pp_end p) (pp_stages p)) as [x e]. cbn [fst].
    destruct x as [|b r]; [reflexivity|]. exfalso. rewrite Ov in H.
    replace (1 <=? nlen (b :: r)) with true in H by (symmetry; apply N.leb_le; unfold nlen; cbn [length]; lia).
    cbn [andb negb] in H. change (0 <? 1) with true in H. cbn [andb] in H. destruct (set_last _ _ _) as [q l].
    apply (f_equal pp_got) in H. cbn [pp_got] in H. apply (f_equal (@length bytes)) in H. rewrite app_length in H. cbn in H. lia.
  Qed.
  Lemma prest_over p T : good T p -> prest p -> snd (last_q (pp_q p) (pp_end p) (pp_stages p)) = true -> pp_over p = true.
  Proof.
    intros G H E. pose proof (prest_last p T G H) as L. specialize (H ETakeEnd I eq_refl). cbn [pstep] in H.
    destruct (last_q (pp_q p) (pp_end p) (pp_stages p)) as [x e]. cbn in L, E. subst x e. cbn in H. rewrite <- H. reflexivity.
  Qed.
  Lemma pipe_complete p T : 0 < room -> good T p -> alive (pp_stages p) -> prest p -> concat (pp_got p) = T /\ (pp_over p = true <-> pp_end p = true).
  Proof.
    intros R G A H. pose proof (prest_last p T G H) as L. pose proof (prest_still p H) as St. pose proof (prest_over p T G H) as Ov.
    destruct G as (O & W & V). destruct (empties room R _ _ _ W A St L) as (Q & F). split.
    - symmetry. eapply ok_empty; eauto.
    - split.
      + intros Z. specialize (V Z). apply (end_back _ _ _ W A). rewrite V. reflexivity.
      + intros Z. apply Ov. apply (ends_alive room R); auto.
  Qed.
  Lemma pipe_broken p T : 0 < room -> good T p -> Exists (fun s => sg_dead s = true) (pp_stages p) -> prest p -> pp_over p = true.
  Proof.
    intros R G A H. apply (prest_over p T G H). apply (ends_dead room R).
    - apply G.
    - apply prest_still, H.
    - apply (prest_last p T G H).
    - exact A.
  Qed.
  Lemma rest_up c : rest room c -> prest (ch_up c).
  Proof.
    intros H e M N. destruct (H e M) as (A & _). destruct c as [u d].
    assert (E : cstep room (Chain u d) (CUp e) = Chain (pstep room u e) d) by (destruct e as [b| |i [n| |n| |]|n|]; try reflexivity; discriminate N).
    rewrite E in A. injection A as A. exact A.
  Qed.
  Lemma rest_down c : rest room c -> prest (ch_down c).
  Proof.
    intros H e M N. destruct (H e M) as (_ & A). destruct c as [u d].
    assert (E : cstep room (Chain u d) (CDown e) = Chain u (pstep room d e)) by (destruct e as [b| |i [n| |n| |]|n|]; try reflexivity; discriminate N).
    rewrite E in A. injection A as A. exact A.
  Qed.
  Lemma no_die_up k es : ~ broken k es -> Forall (fun e => not_die e = true) (flat_map (up_of k) es).
  Proof.
    intros B. rewrite Forall_forall. intros e H. apply in_flat_map in H as (x & Hx & H). destruct x as [y|y|i]; cbn [up_of] in H.
    - destruct (not_die y) eqn:N; [|destruct H]. destruct H as [<-|[]]. exact N.
    - destruct H.
    - destruct (i <? k)%nat eqn:L; [|destruct H]. exfalso. apply B. exists i. split; [apply Nat.ltb_lt, L | exact Hx].
  Qed.
  Lemma no_die_down k es : ~ broken k es -> Forall (fun e => not_die e = true) (flat_map (down_of k) es).
  Proof.
    intros B. rewrite Forall_forall. intros e H. apply in_flat_map in H as (x & Hx & H). destruct x as [y|y|i]; cbn [down_of] in H.
    - destruct H.
    - destruct (not_die y) eqn:N; [|destruct H]. destruct H as [<-|[]]. exact N.
    - destruct (i <? k)%nat eqn:L; [|destruct H]. exfalso. apply B. exists i. split; [apply Nat.ltb_lt, L | exact Hx].
  Qed.
  Lemma fin_up k es : In EFin (flat_map (up_of k) es) <-> In EFin (ups es).
  Proof.
    unfold ups. rewrite !in_flat_map. split; intros (x & Hx & H); exists x; (split; [exact Hx|]).
    - destruct x as [y|y|i]; cbn [up_of] in H; [|destruct H|destruct (i <? k)%nat; [destruct H as [H|[]]; discriminate | destruct H]].
      destruct (not_die y); [exact H | destruct H].
    - destruct x as [y|y|i]; [|destruct H|destruct H]. destruct H as [->|[]]. left. reflexivity.
  Qed.
  Lemma fin_down k es : In EFin (flat_map (down_of k) es) <-> In EFin (downs es).
  Proof.
    unfold downs. rewrite !in_flat_map. split; intros (x & Hx & H); exists x; (split; [exact Hx|]).
    - destruct x as [y|y|i]; cbn [down_of] in H; [destruct H| |destruct (i <? k)%nat; [destruct H as [H|[]]; discriminate | destruct H]].
      destruct (not_die y); [exact H | destruct H].
    - destruct x as [y|y|i]; [destruct H| |destruct H]. destruct H as [->|[]]. left. reflexivity.
  Qed.

  (* ---- every history comes to rest ---- *)
  Fixpoint mu_l (q : bytes) (l : list stage) : N :=
    match l with
    | [] => nlen q
    | s :: l' => (2 * N.of_nat (length l) + 1) * nlen q + 2 * N.of_nat (length l) * nlen (sg_buf s) +
                 (if sg_eof s then 0 else 1) + (if sg_shut s then 0 else 1) + mu_l (sg_q s) l'
    end.
  Lemma nlen_skip (n : N) (b : bytes) : nlen (skipn (N.to_nat n) b) = nlen b - n.
  Proof. unfold nlen. rewrite skipn_length. lia. Qed.
  Lemma nlen_first (n : N) (b : bytes) : n <= nlen b -> nlen (firstn (N.to_nat n) b) = n.
  Proof. unfold nlen. intros H. rewrite firstn_length. lia. Qed.
  Lemma mu_more : forall l q b, mu_l (q ++ b) l = mu_l q l + (2 * N.of_nat (length l) + 1) * nlen b.
  Proof. intros [|s l] q b; cbn [mu_l]; rewrite nlen_app; [cbn [length]; lia|]. nia. Qed.
  Lemma hop_mu o q e s l : o <> ODie -> hop room o q e s = (q, s) \/
    (mu_l (fst (hop room o q e s)) (snd (hop room o q e s) :: l) < mu_l q (s :: l)).
  Proof.
    intros Ho. unfold hop. destruct (sg_dead s); [auto|]. destruct o as [n| |n| |]; [| | | |congruence].
    - destruct ((0 <? n) && (n <=? nlen q) && (n + nlen (sg_buf s) <=? copy_room) && negb (sg_eof s)) eqn:C; [|auto]. right.
      apply andb_prop in C as [C C4]. apply andb_prop in C as [C C3]. apply andb_prop in C as [C1 C2].
      apply N.ltb_lt in C1. apply N.leb_le in C2. apply negb_true_iff in C4.
      cbn [fst snd mu_l sg_buf sg_eof sg_shut sg_q length]. rewrite nlen_skip, nlen_app, nlen_first, C4 by exact C2.
      set (L := N.of_nat (S (length l))). assert (n + (nlen q - n) = nlen q) by lia. nia.
    - destruct (e && (nlen q =? 0) && negb (sg_eof s)) eqn:C; [|auto]. right. apply andb_prop in C as [C C3]. apply negb_true_iff in C3.
      cbn [fst snd mu_l sg_buf sg_eof sg_shut sg_q length]. rewrite C3. lia.
    - destruct ((0 <? n) && (n <=? nlen (sg_buf s)) && (n + nlen (sg_q s) <=? room) && negb (sg_shut s)) eqn:C; [|auto]. right.
      apply andb_prop in C as [C C4]. apply andb_prop in C as [C C3]. apply andb_prop in C as [C1 C2].
      apply N.ltb_lt in C1. apply N.leb_le in C2.
      cbn [fst snd mu_l sg_buf sg_eof sg_shut sg_q length]. rewrite mu_more, nlen_skip, nlen_first by exact C2.
      rewrite Nat2N.inj_succ. set (L := N.of_nat (length l)). assert (n + (nlen (sg_buf s) - n) = nlen (sg_buf s)) by lia. nia.
    - destruct (sg_eof s && (nlen (sg_buf s) =? 0) && negb (sg_shut s)) eqn:C; [|auto]. right. apply andb_prop in C as [C C3]. apply andb_prop in C as [C1 C2].
      apply negb_true_iff in C3. apply N.eqb_eq in C2. apply nlen0 in C2.
      cbn [fst snd mu_l sg_buf sg_eof sg_shut sg_q length]. rewrite C3, C2, C1. lia.
  Qed.
  Lemma act_mu : forall i o q e l, o <> ODie -> act room i o q e l = (q, l) \/
    mu_l (fst (act room i o q e l)) (snd (act room i o q e l)) < mu_l q l.
  Proof.
    induction i as [|i IH]; intros o q e [|s l] Ho; cbn [act]; auto.
    - destruct (hop_mu o q e s l Ho) as [H|H].
      + left. rewrite H. reflexivity.
      + right. destruct (hop room o q e s). exact H.
    - pose proof (act_length room i o (sg_q s) (sg_end s) l) as Hl.
      destruct (IH o (sg_q s) (sg_end s) l Ho) as [H|H].
      + left. rewrite H. destruct s. reflexivity.
      + right. destruct (act room i o (sg_q s) (sg_end s) l) as [sq l2]. cbn [fst snd] in *. cbn [mu_l sg_buf sg_eof sg_shut sg_q length]. rewrite Hl. lia.
  Qed.
  Lemma set_last_mu : forall l q e n, 0 < n -> n <= nlen (fst (last_q q e l)) ->
    mu_l (fst (set_last (skipn (N.to_nat n) (fst (last_q q e l))) q l)) (snd (set_last (skipn (N.to_nat n) (fst (last_q q e l))) q l)) < mu_l q l.
  Proof.
    induction l as [|s l IH]; intros q e n A B; cbn [last_q set_last] in *.
    - cbn [fst snd mu_l] in *. rewrite nlen_skip. lia.
    - specialize (IH (sg_q s) (sg_end s) n A B). pose proof (set_last_length l (skipn (N.to_nat n) (fst (last_q (sg_q s) (sg_end s) l))) (sg_q s)) as Hl.
      destruct (set_last _ (sg_q s) l) as [sq l2]. cbn [fst snd] in *. cbn [mu_l sg_buf sg_eof sg_shut sg_q length]. rewrite Hl. lia.
  Qed.
  Definition mu (p : pipe) : N := mu_l (pp_q p) (pp_stages p) + (if pp_over p then 0 else 1).
  Lemma step_mu p e : moves e -> not_die e = true -> pstep room p e = p \/ mu (pstep room p e) < mu p.
  Proof.
    intros M N. destruct e as [b| |i o|n|]; cbn in M; try contradiction; cbn [pstep].
    - assert (Ho : o <> ODie) by (destruct o; cbn in N; congruence).
      destruct (act_mu i o (pp_q p) (pp_end p) (pp_stages p) Ho) as [H|H].
      + left. rewrite H. destruct p. reflexivity.
      + right. destruct (act room i o _ _ _). unfold mu. cbn in *. lia.
    - pose proof (set_last_mu (pp_stages p) (pp_q p) (pp_end p) n) as H.
      destruct (last_q (pp_q p) (pp_end p) (pp_stages p)) as [x e]. cbn [fst] in H.
      destruct ((0 <? n) && (n <=? nlen x) && negb (pp_over p)) eqn:C; [|auto]. right.
      apply andb_prop in C as [C C3]. apply andb_prop in C as [C1 C2]. apply N.ltb_lt in C1. apply N.leb_le in C2. specialize (H C1 C2).
      destruct (set_last _ _ _) as [q l]. unfold mu. cbn in *. lia.
    - destruct (last_q (pp_q p) (pp_end p) (pp_stages p)) as [x e]. destruct (e && (nlen x =? 0)); [|auto].
      destruct (pp_over p) eqn:O; [left; destruct p; cbn in *; congruence|]. right. unfold mu. cbn. rewrite O. lia.
  Qed.
  (* a few attempts decide whether anything moves *)
  Definition probes (k : nat) : list pev :=
    ETake 1 :: ETakeEnd :: flat_map (fun i => [ENode i (ORead 1); ENode i OEof; ENode i (OWrite 1); ENode i OShut]) (seq 0 k).
  Lemma hop_one_read q e s n : hop room (ORead 1) q e s = (q, s) -> hop room (ORead n) q e s = (q, s).
  Proof.
    unfold hop. destruct (sg_dead s); [auto|].
    destruct ((0 <? n) && (n <=? nlen q) && (n + nlen (sg_buf s) <=? copy_room) && negb (sg_eof s)) eqn:C; [|auto].
    apply andb_prop in C as [C C4]. apply andb_prop in C as [C C3]. apply andb_prop in C as [C1 C2].
    apply N.ltb_lt in C1. apply N.leb_le in C2. apply N.leb_le in C3. rewrite C4.
    replace (1 <=? nlen q) with true by (symmetry; apply N.leb_le; lia).
    replace (1 + nlen (sg_buf s) <=? copy_room) with true by (symmetry; apply N.leb_le; lia).
    cbn [andb]. change (0 <? 1) with true. cbn [andb]. intros H. injection H as H _. exfalso. apply (skipn_shorter 1 q); [lia|lia|exact H].
  Qed.
  Lemma hop_one_write q e s n : hop room (OWrite 1) q e s = (q, s) -> hop room (OWrite n) q e s = (q, s).
  Proof.
    unfold hop. destruct (sg_dead s) eqn:D; [auto|].
    destruct ((0 <? n) && (n <=? nlen (sg_buf s)) && (n + nlen (sg_q s) <=? room) && negb (sg_shut s)) eqn:C; [|auto].
    apply andb_prop in C as [C C4]. apply andb_prop in C as [C C3]. apply andb_prop in C as [C1 C2].
    apply N.ltb_lt in C1. apply N.leb_le in C2. apply N.leb_le in C3. rewrite C4.
    replace (1 <=? nlen (sg_buf s)) with true by (symmetry; apply N.leb_le; lia).
    replace (1 + nlen (sg_q s) <=? room) with true by (symmetry; apply N.leb_le; lia).
    cbn [andb]. change (0 <? 1) with true. cbn [andb]. intros H. injection H as H. apply (f_equal sg_buf) in H. cbn [sg_buf] in H.
    exfalso. apply (skipn_shorter 1 (sg_buf s)); [lia|lia|exact H].
  Qed.
  Lemma act_one : forall i o1 o, (forall q e s, hop room o1 q e s = (q, s) -> hop room o q e s = (q, s)) ->
    forall q e l, act room i o1 q e l = (q, l) -> act room i o q e l = (q, l).
  Proof.
    induction i as [|i IH]; intros o1 o H q e [|s l] A; cbn [act] in *; auto.
    - destruct (hop room o1 q e s) as [q1 s1] eqn:E. injection A as -> ->. rewrite (H _ _ _ E). reflexivity.
    - destruct (act room i o1 (sg_q s) (sg_end s) l) as [sq l2] eqn:E. injection A as A1 A2. subst l2.
      assert (sq = sg_q s) by (destruct s; cbn in *; injection A1; auto). subst sq. rewrite (IH _ _ H _ _ _ E). destruct s. reflexivity.
  Qed.
  Lemma act_beyond : forall i o q e l, (length l <= i)%nat -> act room i o q e l = (q, l).
  Proof.
    induction i as [|i IH]; intros o q e [|s l] H; cbn [act length] in *; try lia; auto. rewrite IH by lia. destruct s. reflexivity.
  Qed.
  Lemma probes_rest p : Forall (fun e => pstep room p e = p) (probes (length (pp_stages p))) -> prest p.
  Proof.
    intros F e M N. unfold probes in F. inversion F as [|? ? F1 F']; subst. inversion F' as [|? ? F2 F3]; subst. clear F F'.
    rewrite Forall_forall in F3.
    assert (K : forall i o, (i < length (pp_stages p))%nat -> In (ENode i o) [ENode i (ORead 1); ENode i OEof; ENode i (OWrite 1); ENode i OShut] ->
                act room i o (pp_q p) (pp_end p) (pp_stages p) = (pp_q p, pp_stages p)).
    { intros i o Hi Ho. assert (X : pstep room p (ENode i o) = p).
      { apply F3. apply in_flat_map. exists i. split; [apply in_seq; lia | exact Ho]. }
      cbn [pstep] in X. destruct (act room i o _ _ _) as [q l]. destruct p. cbn in *. injection X as -> ->. reflexivity. }
    destruct e as [b| |i o|n|]; cbn in M; try contradiction.
    - cbn [pstep]. assert (A : act room i o (pp_q p) (pp_end p) (pp_stages p) = (pp_q p, pp_stages p)).
      { destruct (Nat.lt_ge_cases i (length (pp_stages p))) as [Hi|Hi]; [|apply act_beyond, Hi].
        destruct o as [n| |n| |]; cbn in N; try discriminate.
        - apply (act_one i (ORead 1)); [intros; apply hop_one_read; assumption|]. apply K; cbn; auto.
        - apply K; cbn; auto.
        - apply (act_one i (OWrite 1)); [intros; apply hop_one_write; assumption|]. apply K; cbn; auto.
        - apply K; cbn; auto. }
      rewrite A. destruct p. reflexivity.
    - cbn [pstep] in F1 |- *. destruct (last_q (pp_q p) (pp_end p) (pp_stages p)) as [x e].
      destruct ((0 <? n) && (n <=? nlen x) && negb (pp_over p)) eqn:C; [|reflexivity]. exfalso.
      apply andb_prop in C as [C C3]. apply andb_prop in C as [C1 C2]. apply N.ltb_lt in C1. apply N.leb_le in C2. rewrite C3 in F1.
      replace (1 <=? nlen x) with true in F1 by (symmetry; apply N.leb_le; lia). cbn [andb] in F1. change (0 <? 1) with true in F1. cbn [andb] in F1.
      destruct (set_last _ _ _) as [q l]. apply (f_equal pp_got) in F1. cbn [pp_got] in F1. apply (f_equal (@length bytes)) in F1. rewrite app_length in F1. cbn in F1. lia.
    - exact F2.
  Qed.
  Lemma probes_move k e : In e (probes k) -> moves e /\ not_die e = true.
  Proof.
    unfold probes. intros H. cbn [In] in H. destruct H as [E|[E|H]]; [subst e; split; [exact I | reflexivity] | subst e; split; [exact I | reflexivity] |].
    apply in_flat_map in H as (i & _ & H). cbn [In] in H. destruct H as [E|[E|[E|[E|[]]]]]; subst e; (split; [exact I | reflexivity]).
  Qed.
  Lemma probe_dec p : forall l, (forall e, In e l -> moves e /\ not_die e = true) ->
    Forall (fun e => pstep room p e = p) l \/ exists e, In e l /\ mu (pstep room p e) < mu p.
  Proof.
    induction l as [|e l IH]; intros H; [auto|].
    destruct (step_mu p e (proj1 (H e (or_introl eq_refl))) (proj2 (H e (or_introl eq_refl)))) as [E|E]; [|right; exists e; cbn; auto].
    destruct IH as [F|(e' & I' & L)]; [intros e' He'; apply H; right; exact He' | left; auto | right; exists e'; cbn; auto].
  Qed.
  Lemma settle : forall n p, mu p < n -> exists ms, Forall (fun e => moves e /\ not_die e = true) ms /\ prest (prun room p ms).
  Proof.
    induction n as [|n IH] using N.peano_ind; intros p H; [lia|].
    destruct (probe_dec p (probes (length (pp_stages p))) (probes_move _)) as [F|(e & He & L)].
    - exists []. split; [constructor|]. apply probes_rest, F.
    - destruct (IH (pstep room p e) ltac:(lia)) as (ms & F & R). exists (e :: ms). split; [constructor; [eapply probes_move; eauto | exact F] | exact R].
  Qed.
  Lemma run_ups c ms : Forall (fun e => moves e /\ not_die e = true) ms -> crun room c (map CUp ms) = Chain (prun room (ch_up c) ms) (ch_down c).
  Proof.
    revert c. induction ms as [|e ms IH]; intros c F; [destruct c; reflexivity|]. inversion F as [|? ? (M & N) F']; subst.
    cbn [map crun fold_left]. unfold crun in IH. rewrite IH by exact F'.
    assert (E : cstep room c (CUp e) = Chain (pstep room (ch_up c) e) (ch_down c)) by (destruct e as [b| |i [n| |n| |]|n|]; try reflexivity; discriminate N).
    rewrite E. reflexivity.
  Qed.
  Lemma run_downs c ms : Forall (fun e => moves e /\ not_die e = true) ms -> crun room c (map CDown ms) = Chain (ch_up c) (prun room (ch_down c) ms).
  Proof.
    revert c. induction ms as [|e ms IH]; intros c F; [destruct c; reflexivity|]. inversion F as [|? ? (M & N) F']; subst.
    cbn [map crun fold_left]. unfold crun in IH. rewrite IH by exact F'.
    assert (E : cstep room c (CDown e) = Chain (ch_up c) (pstep room (ch_down c) e)) by (destruct e as [b| |i [n| |n| |]|n|]; try reflexivity; discriminate N).
    rewrite E. reflexivity.
  Qed.
  Lemma rest_of u d : prest u -> prest d -> rest room (Chain u d).
  Proof.
    intros U D e M. destruct (not_die e) eqn:N.
    - specialize (U e M N). specialize (D e M N).
      split; [replace (cstep room (Chain u d) (CUp e)) with (Chain (pstep room u e) d) by (destruct e as [b| |i [n| |n| |]|n|]; try reflexivity; discriminate N)
             |replace (cstep room (Chain u d) (CDown e)) with (Chain u (pstep room d e)) by (destruct e as [b| |i [n| |n| |]|n|]; try reflexivity; discriminate N)]; congruence.
    - destruct e as [b| |i [n| |n| |]|n|]; cbn in N; try discriminate. split; reflexivity.
  Qed.

  (* ---- C162: a chain of nodes carries a tunnel unchanged ------------------------------- *)
  (* at every moment, whatever breaks, each side has a beginning of what the other sent *)
  Theorem C162_order k es : let c := crun room (chain0 k) es in
    (exists r, said (ups es) = concat (pp_got (ch_up c)) ++ r) /\ (exists r, said (downs es) = concat (pp_got (ch_down c)) ++ r).
  Proof.
    intros c. unfold c. rewrite run0. cbn [ch_up ch_down]. split.
    - destruct (good_run k (flat_map (up_of k) es)) as (O & _). rewrite said_up in O. exact (ok_prefix _ _ _ _ O).
    - destruct (good_run k (flat_map (down_of k) es)) as (O & _). rewrite said_down in O. exact (ok_prefix _ _ _ _ O).
  Qed.

  (* when nothing is left to do and no node broke, each side has all of it, and knows of
     the other's end exactly if it ended *)
  Theorem C162_complete k es : 0 < room -> let c := crun room (chain0 k) es in
    ~ broken k es -> rest room c ->
    concat (pp_got (ch_up c)) = said (ups es) /\ (pp_over (ch_up c) = true <-> In EFin (ups es)) /\
    concat (pp_got (ch_down c)) = said (downs es) /\ (pp_over (ch_down c) = true <-> In EFin (downs es)).
  Proof.
    intros R c B Q. pose proof (rest_up c Q) as U. pose proof (rest_down c Q) as D. unfold c in *. rewrite run0 in *. cbn [ch_up ch_down] in *.
    destruct (pipe_complete _ _ R (good_run k (flat_map (up_of k) es)) (alive_run _ _ (no_die_up k es B) (alive0 k)) U) as (A1 & A2).
    destruct (pipe_complete _ _ R (good_run k (flat_map (down_of k) es)) (alive_run _ _ (no_die_down k es B) (alive0 k)) D) as (A3 & A4).
    rewrite said_up in A1. rewrite said_down in A3. rewrite pend_fin, fin_up in A2. rewrite pend_fin, fin_down in A4.
    cbn [pipe0 pp_end] in A2, A4. repeat split; intros; try tauto; try (apply A2 || apply A4; auto).
    - apply A2 in H. destruct H; [discriminate | auto].
    - apply A4 in H. destruct H; [discriminate | auto].
  Qed.

  (* whatever has happened, nodes and receivers can bring the chain to rest, and cannot
     put it off for ever: only so many steps change anything *)
  Theorem C162_settles k es : exists ms, Forall (fun e => exists x, moves x /\ (e = CUp x \/ e = CDown x)) ms /\ rest room (crun room (chain0 k) (es ++ ms)).
  Proof.
    set (c := crun room (chain0 k) es).
    destruct (settle (mu (ch_up c) + 1) (ch_up c) ltac:(lia)) as (a & Fa & Ra).
    destruct (settle (mu (ch_down c) + 1) (ch_down c) ltac:(lia)) as (b & Fb & Rb).
    exists (map CUp a ++ map CDown b). split.
    - rewrite Forall_app, !Forall_map. split; [eapply Forall_impl; [|exact Fa] | eapply Forall_impl; [|exact Fb]]; intros x (M & _); exists x; auto.
    - unfold crun. rewrite !fold_left_app. fold (crun room (chain0 k) es). fold c. fold (crun room c (map CUp a)). rewrite (run_ups _ _ Fa).
      fold (crun room (Chain (prun room (ch_up c) a) (ch_down c)) (map CDown b)). rewrite (run_downs _ _ Fb). cbn [ch_up ch_down]. apply rest_of; assumption.
  Qed.
  (* a node holds at most 8192 bytes of each direction, and puts no more on a connection than it holds *)
  Definition roomy (s : stage) : Prop := nlen (sg_buf s) <= 8192 /\ nlen (sg_q s) <= room.
  Lemma skip_len (n : N) (b : bytes) : nlen (skipn (N.to_nat n) b) <= nlen b.
  Proof. unfold nlen. rewrite skipn_length. lia. Qed.
  Lemma hop_roomy o q e s : roomy s -> nlen (fst (hop room o q e s)) <= nlen q /\ roomy (snd (hop room o q e s)).
  Proof.
    intros (A & B). unfold hop. destruct (sg_dead s); [cbn [fst snd]; split; [apply N.le_refl|split; assumption]|]. destruct o as [n| |n| |].
    - destruct ((0 <? n) && (n <=? nlen q) && (n + nlen (sg_buf s) <=? copy_room) && negb (sg_eof s)) eqn:C; cbn [fst snd]; [|split; [apply N.le_refl|split; assumption]].
      apply andb_prop in C as [C _]. apply andb_prop in C as [_ C]. apply N.leb_le in C. split; [apply skip_len|]. split; cbn [sg_buf sg_q]; [|exact B]. unfold copy_room, nlen in *. rewrite app_length, firstn_length. lia.
    - destruct (_ && _); cbn [fst snd]; (split; [apply N.le_refl|split; assumption]).
    - destruct ((0 <? n) && (n <=? nlen (sg_buf s)) && (n + nlen (sg_q s) <=? room) && negb (sg_shut s)) eqn:C; cbn [fst snd]; [|split; [apply N.le_refl|split; assumption]].
      apply andb_prop in C as [C _]. apply andb_prop in C as [_ C]. apply N.leb_le in C. split; [lia|]. split; cbn [sg_buf sg_q]; [pose proof (skip_len n (sg_buf s)); lia|]. unfold nlen in *. rewrite app_length, firstn_length. lia.
    - destruct (_ && _); cbn [fst snd]; (split; [apply N.le_refl|]); (split; cbn [sg_buf sg_q]; [|assumption]); [discriminate|assumption].
    - cbn [fst snd]. split; [apply N.le_refl|]. split; cbn [sg_buf sg_q]; [discriminate|assumption].
  Qed.
  Lemma act_roomy o : forall l i q e, Forall roomy l -> nlen (fst (act room i o q e l)) <= nlen q /\ Forall roomy (snd (act room i o q e l)).
  Proof.
    induction l as [|s l IH]; intros i q e F; [destruct i; (split; [apply N.le_refl|constructor])|]. inversion F as [|? ? A B]; subst. destruct i as [|i]; cbn [act].
    - destruct (hop_roomy o q e s A) as (X & Y). destruct (hop room o q e s) as (q', s'). cbn [fst snd] in *. split; [exact X|constructor; assumption].
    - destruct (IH i (sg_q s) (sg_end s) B) as (X & Y). destruct (act room i o (sg_q s) (sg_end s) l) as (sq, l''). cbn [fst snd] in *. split; [lia|]. constructor; [|exact Y]. destruct A as (A1 & A2). split; cbn [sg_buf sg_q]; [exact A1|lia].
  Qed.
  Lemma last_roomy x : forall l q e, Forall roomy l -> nlen x <= nlen (fst (last_q q e l)) -> Forall roomy (snd (set_last x q l)) /\ nlen (fst (set_last x q l)) <= nlen q.
  Proof.
    induction l as [|s l IH]; intros q e F Lx; [cbn in *; split; [constructor|exact Lx]|]. inversion F as [|? ? A B]; subst. cbn [last_q] in Lx. cbn [set_last].
    destruct (IH (sg_q s) (sg_end s) B Lx) as (X & Y). destruct (set_last x (sg_q s) l) as (sq, l''). cbn [fst snd] in *. split; [|lia]. constructor; [|exact X]. destruct A as (A1 & A2). split; cbn [sg_buf sg_q]; [exact A1|lia].
  Qed.
  Lemma pstep_roomy p e : Forall roomy (pp_stages p) -> Forall roomy (pp_stages (pstep room p e)).
  Proof.
    intros F. destruct e as [b| |i o|n|]; cbn [pstep].
    - destruct (pp_end p); exact F.
    - exact F.
    - destruct (act_roomy o (pp_stages p) i (pp_q p) (pp_end p) F) as (_ & X). destruct (act room i o (pp_q p) (pp_end p) (pp_stages p)) as (q, l). exact X.
    - destruct (last_q (pp_q p) (pp_end p) (pp_stages p)) as (x, e) eqn:Q. destruct (_ && _); [|exact F].
      destruct (last_roomy (skipn (N.to_nat n) x) (pp_stages p) (pp_q p) (pp_end p) F) as (X & _); [rewrite Q; apply skip_len|]. destruct (set_last _ _ _) as (q, l). exact X.
    - destruct (last_q _ _ _) as (x, e). destruct (_ && _); exact F.
  Qed.
  Theorem C162_held k es s : let c := crun room (chain0 k) es in In s (pp_stages (ch_up c)) \/ In s (pp_stages (ch_down c)) -> nlen (sg_buf s) <= 8192 /\ nlen (sg_q s) <= room.
  Proof.
    intros c H. assert (G : Forall roomy (pp_stages (ch_up c)) /\ Forall roomy (pp_stages (ch_down c))).
    { assert (Z : Forall roomy (pp_stages (pipe0 k))). { cbn [pipe0 pp_stages]. apply Forall_forall. intros x X. apply repeat_spec in X. subst x. split; unfold nlen; cbn; lia. }
      unfold c, crun. assert (G0 : Forall roomy (pp_stages (ch_up (chain0 k))) /\ Forall roomy (pp_stages (ch_down (chain0 k)))) by (split; exact Z). revert G0. generalize (chain0 k). clear c H Z. induction es as [|e es IH]; intros c (U & D); [split; assumption|]. cbn [fold_left]. apply IH.
      destruct e as [[b| |j []|n|]|[b| |j []|n|]|i]; cbn [cstep]; try (destruct (i <? length (pp_stages (ch_up c)))%nat); split; cbn [ch_up ch_down]; auto using pstep_roomy. }
    destruct G as (U & D). rewrite Forall_forall in U, D. destruct H as [H|H]; [exact (U _ H)|exact (D _ H)].
  Qed.
  (* a list of steps each of which changes the chain *)
  Fixpoint busy (c : chain) (ms : list cev) : Prop :=
    match ms with [] => True | e :: ms' => cstep room c e <> c /\ busy (cstep room c e) ms' end.
  Theorem C162_bounded k es : exists n, forall ms,
    Forall (fun e => exists x, moves x /\ (e = CUp x \/ e = CDown x)) ms -> busy (crun room (chain0 k) es) ms -> (length ms <= n)%nat.
  Proof.
    exists (N.to_nat (mu (ch_up (crun room (chain0 k) es)) + mu (ch_down (crun room (chain0 k) es)))).
    intros ms. generalize (crun room (chain0 k) es). induction ms as [|e ms IH]; intros c F B; [cbn; lia|].
    inversion F as [|? ? (x & M & E) F']; subst. destruct B as (D & B). specialize (IH _ F' B).
    assert (X : mu (ch_up (cstep room c e)) + mu (ch_down (cstep room c e)) < mu (ch_up c) + mu (ch_down c)).
    { destruct (not_die x) eqn:N.
      - destruct c as [u d]. destruct E as [->| ->].
        + assert (E : cstep room (Chain u d) (CUp x) = Chain (pstep room u x) d) by (destruct x as [b| |i [n| |n| |]|n|]; try reflexivity; discriminate N).
          rewrite E in *. cbn [ch_up ch_down]. destruct (step_mu u x M N) as [Z|Z]; [rewrite Z in D; congruence | lia].
        + assert (E : cstep room (Chain u d) (CDown x) = Chain u (pstep room d x)) by (destruct x as [b| |i [n| |n| |]|n|]; try reflexivity; discriminate N).
          rewrite E in *. cbn [ch_up ch_down]. destruct (step_mu d x M N) as [Z|Z]; [rewrite Z in D; congruence | lia].
      - exfalso. apply D. destruct x as [b| |i [n| |n| |]|n|]; cbn in N; try discriminate. destruct E as [->| ->]; reflexivity. }
    cbn [length]. lia.
  Qed.

  (* the frames of the tunnel: the server has at every moment the frames whose last byte has
     come through, and at rest all the client sent *)
  Theorem C162_frames k es fs : let c := crun room (chain0 k) es in
    Forall fits fs -> said (ups es) = wire fs ->
    (exists left, receive [] (pp_got (ch_up c)) = (map public (complete (nlen (concat (pp_got (ch_up c)))) fs), left, StopWait)) /\
    (0 < room -> ~ broken k es -> rest room c -> receive [] (pp_got (ch_up c)) = (map public fs, [], StopWait)).
  Proof.
    intros c F S. split.
    - destruct (C162_order k es) as ((r & H) & _). fold c in H. rewrite S in H. eexists. exact (C02_segmentation fs _ r F H).
    - intros R B Q. apply C02_segmentation_all; [exact F|]. destruct (C162_complete k es R B Q) as (H & _). fold c in H. rewrite H. exact S.
  Qed.

  (* ---- C163: a node that breaks ends the tunnel at both ends ------------------------------ *)
  Theorem C163_both_ends k es : 0 < room -> let c := crun room (chain0 k) es in
    broken k es -> rest room c -> pp_over (ch_up c) = true /\ pp_over (ch_down c) = true.
  Proof.
    intros R c (i & Hi & Hin) Q. pose proof (rest_up c Q) as U. pose proof (rest_down c Q) as D. unfold c in *. rewrite run0 in *. cbn [ch_up ch_down] in *. split.
    - eapply pipe_broken; [exact R | apply good_run | | exact U]. apply (dead_run _ _ i).
      + cbn. rewrite repeat_length. exact Hi.
      + apply in_flat_map. exists (CBreak i). split; [exact Hin|]. cbn [up_of]. apply Nat.ltb_lt in Hi. rewrite Hi. left. reflexivity.
    - eapply pipe_broken; [exact R | apply good_run | | exact D]. apply (dead_run _ _ (k - 1 - i)).
      + cbn. rewrite repeat_length. lia.
      + apply in_flat_map. exists (CBreak i). split; [exact Hin|]. cbn [down_of]. apply Nat.ltb_lt in Hi. rewrite Hi. left. reflexivity.
  Qed.
  (* no side is told of an end while all nodes work and the other has not ended *)
  Theorem C163_only_then k es : let c := crun room (chain0 k) es in
    ~ broken k es -> (pp_over (ch_up c) = true -> In EFin (ups es)) /\ (pp_over (ch_down c) = true -> In EFin (downs es)).
  Proof.
    intros c B. unfold c. rewrite run0. cbn [ch_up ch_down]. split; intros O.
    - destruct (good_run k (flat_map (up_of k) es)) as (_ & W & V). specialize (V O).
      apply (fin_up k). destruct (proj1 (pend_fin _ _) (end_back _ _ _ W (alive_run _ _ (no_die_up k es B) (alive0 k)) ltac:(rewrite V; reflexivity))) as [E|E]; [discriminate | exact E].
    - destruct (good_run k (flat_map (down_of k) es)) as (_ & W & V). specialize (V O).
      apply (fin_down k). destruct (proj1 (pend_fin _ _) (end_back _ _ _ W (alive_run _ _ (no_die_down k es B) (alive0 k)) ltac:(rewrite V; reflexivity))) as [E|E]; [discriminate | exact E].
  Qed.
End Md.

(* ---- C164: the server at the other end must prove the configured name ----------------- *)
Section Name.
  Context (read : text -> option (list pem)) (own_certs : list N) (own_key : N)
          (pair_ok : list N -> N -> bool) (root_ok : N -> bool) (can_bind : saddr -> bool)
          (connects : text -> bool) (is_name : text -> bool) (proves : text -> bool) (domain : option text).
  (* reaching the server at the start is dialling it *)
  Definition dialled (sv : text) (tls : bool) : bool := match snd (dial connects is_name proves tls sv domain) with Ok _ => true | _ => false end.
  Definition starts := proxy_start read own_certs own_key pair_ok root_ok can_bind dialled.

  (* TLS asked for and its files usable: tunnels are passed on, and the client's own is
     made, only to a server that proved the configured name, or the built-in one *)
  Theorem C164_verified c b sv : starts c = BOk b -> p_ts c = true -> p_two_way c = false ->
    (forall p, p_cert c = Some p -> read p <> None) ->
    forall w, pass_up connects is_name proves (b_request b) sv domain = Some w ->
    exists n, w = Secure n /\ proves n = true /\ (domain = Some n \/ domain = None /\ n = txt "soft.wm-proxy.com").
  Proof.
    intros St Ts Tw Rd w.
    assert (R : b_request b = true).
    { apply (C110_client _ _ _ _ _ _ _ _ _ St). split; [exact Ts|]. destruct (p_cert c) as [p|] eqn:P.
      - destruct (read p) as [l|] eqn:E; [|destruct (Rd p eq_refl E)]. exists (pem_certs l). split; [exists l; auto | congruence].
      - exists own_certs. split; [reflexivity | congruence]. }
    rewrite R. unfold pass_up, dial. destruct (connects sv); [|discriminate]. cbn [snd].
    destruct (is_name (name_of domain)); [|discriminate]. cbn [snd]. destruct (proves (name_of domain)) eqn:Pv; [|discriminate].
    intros [= <-]. exists (name_of domain). split; [reflexivity|]. split; [exact Pv|]. destruct domain; cbn; auto.
  Qed.
  (* what is done to reach a server: at most one connection, to that server; and after it, only with TLS, one handshake for
     the configured name, or the built-in one, without which nothing is passed on *)
  Theorem C164_steps tls sv : let d := dial connects is_name proves tls sv domain in
    (fst d = [] /\ connects sv = false /\ snd d = Err tt) \/
    (fst d = [DConn sv] /\ connects sv = true /\ (tls = false /\ snd d = Ok Clear \/ tls = true /\ snd d = Err tt)) \/
    (exists n, fst d = [DConn sv; DShake n] /\ connects sv = true /\ tls = true /\ (domain = Some n \/ domain = None /\ n = txt "soft.wm-proxy.com") /\
       snd d = if proves n then Ok (Secure n) else Err tt).
  Proof.
    cbv zeta. unfold dial. destruct (connects sv); [|left; repeat split]. right. destruct tls; [|left; cbn; auto]. destruct (is_name (name_of domain)); [|left; cbn; auto]. right. exists (name_of domain).
    cbn [fst snd]. repeat split. destruct domain; cbn; auto.
  Qed.
  (* the client of a node that is up has made its connection the same way *)
  Theorem C164_client c b : starts c = BOk b -> b_tunnel b = true -> b_request b = true ->
    exists sv n, p_server c = Some sv /\ connects sv = true /\ proves n = true /\ (domain = Some n \/ domain = None /\ n = txt "soft.wm-proxy.com").
  Proof.
    unfold starts, proxy_start. intros St T R.
    set (rq := match get_tls_request read own_certs own_key pair_ok c with Ok _ => true | _ => false end) in *.
    assert (X : exists sv, p_server c = Some sv /\ dialled sv rq = true /\ rq = true).
    { destruct (get_tls_accept read own_certs own_key pair_ok root_ok c) as [u|u|]; [| |discriminate].
      all: destruct (p_bind c) as [a|]; [destruct (p_server c) as [sv|]; [destruct (dialled sv rq) eqn:D|]|].
      all: cbv beta iota in St; try discriminate.
      all: destruct (listens can_bind _) as [l|]; [|discriminate]; injection St as <-; cbn [b_tunnel b_request] in T, R; try discriminate.
      all: exists sv; auto. }
    destruct X as (sv & Sv & D & Rq). rewrite Rq in D. exists sv, (name_of domain). split; [exact Sv|]. unfold dialled, dial in D.
    destruct (connects sv); [|discriminate]. destruct (is_name (name_of domain)); [|discriminate].
    cbn [snd] in D. destruct (proves (name_of domain)) eqn:Pv; [|discriminate]. split; [reflexivity|]. split; [reflexivity|]. destruct domain; cbn; auto.
  Qed.
  (* with a certificate file that cannot be read the same tunnels are passed on in the clear *)
  Theorem C164_clear_refuted c b p sv : starts c = BOk b -> p_ts c = true -> p_cert c = Some p -> read p = None ->
    connects sv = true -> pass_up connects is_name proves (b_request b) sv domain = Some Clear.
  Proof.
    intros St Ts P E Cn. assert (R : b_request b = false).
    { destruct (b_request b) eqn:R; [|reflexivity]. exfalso. apply (C110_client _ _ _ _ _ _ _ _ _ St) in R as (_ & certs & X & _). rewrite P in X. destruct X as (l & X & _). congruence. }
    rewrite R. unfold pass_up, dial. rewrite Cn. reflexivity.
  Qed.
End Name.

(* ---- a chain at work --------------------------------------------------------------------- *)
(* two nodes and small connections; the client sends 1 2 3 and ends, the server answers 9 *)
Definition ex_es : list cev :=
  [CUp (ESend [1; 2; 3]); CUp (ENode 0 (ORead 2)); CDown (ESend [9]); CUp (ENode 0 (OWrite 1)); CUp EFin; CUp (ENode 1 (ORead 1));
   CUp (ENode 0 (OWrite 1)); CUp (ENode 0 (ORead 1)); CUp (ENode 0 OEof); CUp (ENode 1 (OWrite 1)); CUp (ETake 1); CUp (ENode 1 (ORead 1));
   CUp (ENode 0 (OWrite 1)); CUp (ENode 0 OShut); CUp (ENode 1 (ORead 1)); CUp (ENode 1 OEof); CUp (ENode 1 (OWrite 2)); CUp (ENode 1 OShut);
   CUp (ETake 2); CUp ETakeEnd; CDown (ENode 0 (ORead 1)); CDown (ENode 0 (OWrite 1)); CDown (ENode 1 (ORead 1)); CDown (ENode 1 (OWrite 1)); CDown (ETake 1)].
Example C162_demo : let c := crun 2 (chain0 2) ex_es in
  pp_got (ch_up c) = [[1]; [2; 3]] /\ pp_over (ch_up c) = true /\ pp_got (ch_down c) = [[9]] /\ pp_over (ch_down c) = false /\
  ~ broken 2 ex_es /\ rest 2 c.
Proof.
  cbv zeta. split; [vm_compute; reflexivity|]. split; [vm_compute; reflexivity|]. split; [vm_compute; reflexivity|]. split; [vm_compute; reflexivity|]. split.
  - intros (i & _ & H). cbn in H. repeat (destruct H as [H|H]; [discriminate|]). exact H.
  - destruct (crun 2 (chain0 2) ex_es) as [u d] eqn:E. vm_compute in E. injection E as <- <-.
    apply rest_of; apply probes_rest; repeat constructor.
Qed.
(* a frame through one node, cut into three reads *)
Example C162_frame_demo : let f := FClose 5 (txt "bye") in
  let es := [CUp (ESend (fst (encode f))); CUp (ENode 0 (ORead 14)); CUp (ENode 0 (OWrite 14)); CUp (ETake 3); CUp (ETake 9); CUp (ETake 2);
             CUp (ENode 0 (ORead 1)); CUp (ENode 0 (ORead 1)); CUp (ENode 0 (OWrite 2)); CUp (ETake 2)] in
  fits f /\ said (ups es) = wire [f] /\ fst (fst (receive [] (pp_got (ch_up (crun 64 (chain0 1) es))))) = [f].
Proof.
  cbv zeta. split; [|split; vm_compute; reflexivity].
  split; [exists 0, 5; repeat split; reflexivity|]. split; [apply is_string_ascii; reflexivity | intros H; discriminate H].
Qed.
(* the first node breaks before it has passed on anything *)
Example C163_demo : let c := crun 2 (chain0 2) [CUp (ESend [1]); CUp (ENode 0 (ORead 1)); CBreak 0; CUp (ENode 1 OEof); CUp (ENode 1 OShut); CUp ETakeEnd; CDown ETakeEnd] in
  pp_got (ch_up c) = [] /\ pp_over (ch_up c) = true /\ pp_over (ch_down c) = true /\ rest 2 c.
Proof.
  cbv zeta. split; [vm_compute; reflexivity|]. split; [vm_compute; reflexivity|]. split; [vm_compute; reflexivity|].
  destruct (crun 2 (chain0 2) _) as [u d] eqn:E. vm_compute in E. injection E as <- <-. apply rest_of; apply probes_rest; repeat constructor.
Qed.
Definition ex_conf_ts (cert : text) := PConf false true false (Some cert) None None None (Some (txt "up:1")) None (Some ex_addr) None None None None.
Example C164_demo : let go := starts ex_read [1] 2 (fun _ _ => true) (fun _ => true) (fun _ => true) (fun _ => true) (fun _ => true) (leqb (txt "a.b")) (Some (txt "a.b")) in
  go (ex_conf_ts (txt "cert.pem")) = BOk (Binding false true false false [(LCenter, ex_addr)]) /\
  pass_up (fun _ => true) (fun _ => true) (leqb (txt "a.b")) true (txt "up:1") (Some (txt "a.b")) = Some (Secure (txt "a.b")) /\
  pass_up (fun _ => true) (fun _ => true) (leqb (txt "a.b")) true (txt "up:1") None = None /\
  go (ex_conf_ts (txt "none")) = BOk (Binding false false false false [(LCenter, ex_addr)]).
Proof. repeat split; reflexivity. Qed.

Print Assumptions C162_order.
Print Assumptions C162_complete.
Print Assumptions C162_settles.
Print Assumptions C162_bounded.
Print Assumptions C162_held.
Print Assumptions C162_frames.
Print Assumptions C163_both_ends.
Print Assumptions C163_only_then.
Print Assumptions C164_verified.
Print Assumptions C164_steps.
Print Assumptions C164_client.
Print Assumptions C164_clear_refuted.
