(* C51, C113, C114: one end of a tunnel, poll by poll. *)
From Coq Require Import Lia.
From Verif Require Import Base PollModel PollSpec PollProofs.
Open Scope N_scope.

Section Props.
  Context (mine : N -> bool).
  Notation run := (prun mine).

  (* C51, full statement: for every stream this end creates, announced.  Proved when all
     tasks run on one thread. *)
  Theorem C51_one_thread_partial es s tr id : run tun0 es = (s, tr) -> one_thread mine tun0 es -> mine id = true -> announced tr id.
  Proof.
    intros H O M tr1 f tr2 E F. assert (L := line_run mine es tun0 [] (line0 mine) O). rewrite H in L. destruct L as [_ _ _ _ L]. cbn [fst snd app] in L. rewrite E, sent_split, <- app_assoc in L. cbn [app] in L.
    apply in_sent. specialize (L _ f _ eq_refl). destruct F as [(x & ->)| ->]; (apply L; [exact M|discriminate]).
  Qed.

  Lemma made_step e s tr : (forall id, In id (queued_new tr) -> In id (q_made s)) -> forall id, In id (queued_new (tr ++ snd (pstep mine s e))) -> In id (q_made (fst (pstep mine s e))).
  Proof.
    intros H id. rewrite queued_new_app, in_app_iff. destruct e as [i|i|i x|i|f|x| |n]; cbn [pstep].
    - destruct (mine i && _ && _ && _); cbn [fst snd queued_new flat_map q_made In]; intros [I|[]]; auto.
    - destruct (memN i (q_tasks s) && _ && _); cbn [fst snd queued_new flat_map app q_made In]; [intros [I|[<-|[]]]; auto|intros [I|[]]; auto].
    - destruct (memN i (q_tasks s) && _ && _); cbn [fst snd queued_new flat_map app q_made In]; intros [I|[]]; auto.
    - destruct (memN i (q_tasks s)); [destruct (memN i (q_made s)); [destruct (length (q_out s) <? out_room)%nat|]|]; cbn [fst snd queued_new flat_map app q_made In]; intros [I|[]]; auto.
    - destruct f as [i|i x|i]; [|destruct (negb (mine i) && _)..]; cbn [fst snd queued_new flat_map app q_made In]; intros [I|[]]; auto.
    - cbn [fst snd queued_new flat_map q_made In]. intros [I|[]]. auto.
    - cbn [fst snd queued_new flat_map q_made In]. intros [I|[]]. auto.
    - unfold ppoll. destruct (q_at s); [destruct (q_work s); [destruct (negb (q_owner s) && _)|]|destruct (q_out s)|destruct (q_in s)|]; cbn [fst snd q_made]; rewrite ?queued_new_map; cbn [queued_new flat_map In]; intros [I|[]]; auto.
  Qed.
  Lemma made_run es : forall s tr, (forall id, In id (queued_new tr) -> In id (q_made s)) -> forall id, In id (queued_new (tr ++ snd (run s es))) -> In id (q_made (fst (run s es))).
  Proof.
    induction es as [|e es IH]; intros s tr H id; cbn [prun]; [cbn [snd fst]; rewrite app_nil_r; apply H|].
    assert (Q := made_step e s tr H). destruct (pstep mine s e) as [s1 o1]. cbn [fst snd] in Q. specialize (IH s1 _ Q id). destruct (run s1 es) as [s2 o2]. cbn [fst snd] in *. rewrite app_assoc. exact IH.
  Qed.
  Lemma wire_step e s : exists add, sent (snd (pstep mine s e)) ++ q_buf (fst (pstep mine s e)) = q_buf s ++ add.
  Proof.
    assert (Z : forall b : list fr, exists add, b = b ++ add) by (intro b; exists []; now rewrite app_nil_r).
    destruct e as [i|i|i x|i|f|x| |n]; cbn [pstep].
    - destruct (mine i && _ && _ && _); apply Z.
    - destruct (memN i (q_tasks s) && _ && _); apply Z.
    - destruct (memN i (q_tasks s) && _ && _); apply Z.
    - destruct (memN i (q_tasks s)); [destruct (memN i (q_made s)); [destruct (length (q_out s) <? out_room)%nat|]|]; apply Z.
    - destruct f as [i|i x|i]; [apply Z|destruct (negb (mine i) && _); apply Z..].
    - apply Z.
    - apply Z.
    - unfold ppoll. destruct (q_at s); [destruct (q_work s); [destruct (negb (q_owner s) && _)|]|destruct (q_out s)|destruct (q_in s)|]; cbn [fst snd q_buf sent flat_map app]; try apply Z; try (eexists; reflexivity).
      fold (sent (map OWrote (firstn n (q_buf s)))). rewrite sent_map, firstn_skipn. apply Z.
  Qed.
  Lemma wire_run es : forall s, exists add, sent (snd (run s es)) ++ q_buf (fst (run s es)) = q_buf s ++ add.
  Proof.
    induction es as [|e es IH]; intro s; cbn [prun]; [exists []; cbn; now rewrite app_nil_r|].
    destruct (wire_step e s) as (a & A). destruct (pstep mine s e) as [s1 o1]. destruct (IH s1) as (b & B). destruct (run s1 es) as [s2 o2]. cbn [fst snd] in *.
    exists (a ++ b). rewrite sent_app, <- app_assoc, B, app_assoc, A, <- app_assoc. reflexivity.
  Qed.
  Lemma sent_cut T : forall A f B, sent T = A ++ f :: B -> exists T1 T2, T = T1 ++ OWrote f :: T2 /\ sent T1 = A.
  Proof.
    induction T as [|o T IH]; intros A f B E; [destruct A; discriminate E|].
    destruct o as [x|g|g].
    - destruct (IH A f B E) as (T1 & T2 & -> & Q). exists (ORead x :: T1), T2. split; [reflexivity|exact Q].
    - cbn in E. destruct A as [|a A].
      + injection E as -> E. exists [], T. split; reflexivity.
      + injection E as -> E. destruct (IH A f B E) as (T1 & T2 & -> & Q). exists (OWrote a :: T1), T2. split; [reflexivity|cbn; f_equal; exact Q].
    - destruct (IH A f B E) as (T1 & T2 & -> & Q). exists (OQueued g :: T1), T2. split; [reflexivity|exact Q].
  Qed.
  (* false of the code: whenever the loop has found the first queue empty and has not yet
     looked at the second one, a new stream of a task can overtake itself *)
  Theorem C51_overtaken_refuted es s tr id : run tun0 es = (s, tr) -> q_at s = AtOut -> q_work s = [] -> q_out s = [] -> In id (q_tasks s) -> ~ In id (q_made s) ->
    exists es', ~ announced (snd (run tun0 (es ++ es'))) id.
  Proof.
    intros H P W O T M. pose (x := 0). set (s3 := Tun [id] [] (q_buf s ++ [FData id x]) (q_in s) (q_owner s) (q_tasks s) (id :: q_made s) AtWork).
    assert (E3 : run s [TCreate id; TData id x; TPoll 1] = (s3, [OQueued (FCreate id); OQueued (FData id x)])).
    { assert (T' : memN id (q_tasks s) = true) by now apply memN_ok. assert (M' : memN id (q_made s) = false) by (destruct (memN id (q_made s)) eqn:Q; [apply memN_ok in Q; contradiction|reflexivity]).
      cbn [prun pstep]. rewrite T', M', W. cbn [negb andb length Nat.ltb Nat.leb app q_work q_out q_buf q_in q_owner q_tasks q_made q_at]. unfold work_room. cbn [Nat.leb]. cbn [q_work q_out q_buf q_in q_owner q_tasks q_made q_at pstep].
      rewrite T'. replace (memN id (id :: q_made s)) with true by (cbn; now rewrite N.eqb_refl). rewrite O. cbn [andb length out_room]. replace (0 <? out_room)%nat with true by reflexivity. cbn [app q_work q_out q_buf q_in q_owner q_tasks q_made q_at pstep ppoll]. rewrite P. reflexivity. }
    assert (HH : held s3) by (right; cbn; intro Q; rewrite Q in T; destruct T).
    destruct (drain mine 1 s3 (le_n _) HH) as (k & (_ & _ & D & _)). exists ([TCreate id; TData id x; TPoll 1] ++ repeat (TPoll 1) k). intro A.
    rewrite prun_app, H, prun_app, E3 in A. destruct (run s3 (repeat (TPoll 1) k)) as [s4 o4] eqn:R. cbn [fst snd] in *.
    destruct (wire_run (repeat (TPoll 1) k) s3) as (add & B). rewrite R in B. cbn [fst snd] in B. rewrite D, app_nil_r in B. cbn [s3 q_buf] in B.
    assert (S4 : sent (tr ++ [OQueued (FCreate id); OQueued (FData id x)] ++ o4) = (sent tr ++ q_buf s) ++ FData id x :: add) by (rewrite !sent_app, B; cbn [sent flat_map app]; rewrite <- !app_assoc; reflexivity).
    destruct (sent_cut _ _ _ _ S4) as (T1 & T2 & E & Q). specialize (A T1 _ T2 E (or_introl (ex_intro _ x eq_refl))). apply in_sent in A. rewrite Q in A.
    assert (BK := books_run mine es tun0 [] [] books0). rewrite H in BK. destruct BK as [_ _ BN _]. cbn [fst snd app] in BN.
    assert (MD := made_run es tun0 [] (fun i I => False_ind _ I) id). rewrite H in MD. cbn [fst snd app] in MD.
    apply M, MD. rewrite BN. apply in_app_iff in A. destruct A as [A|A].
    - apply in_app_iff. left. unfold wrote_new. apply in_flat_map. exists (OWrote (FCreate id)). split; [now apply in_sent|now left].
    - apply in_app_iff. right. apply in_app_iff. left. unfold fresh. apply in_flat_map. exists (FCreate id). split; [exact A|now left].
  Qed.

  (* the owner goes only with a reload *)
  Lemma owner_stays es : forall s, q_owner s = true -> ~ In TReload es -> q_owner (fst (run s es)) = true.
  Proof.
    induction es as [|e es IH]; intros s Z N; [exact Z|]. cbn [prun].
    assert (Q : q_owner (fst (pstep mine s e)) = true).
    { destruct e as [i|i|i x|i|f|x| |n]; cbn [pstep]; try (exfalso; apply N; now left); try exact Z.
      - destruct (mine i && _ && _ && _); exact Z.
      - destruct (memN i (q_tasks s) && _ && _); exact Z.
      - destruct (memN i (q_tasks s) && _ && _); exact Z.
      - destruct (memN i (q_tasks s)); [destruct (memN i (q_made s)); [destruct (length (q_out s) <? out_room)%nat|]|]; exact Z.
      - destruct f as [i|i x|i]; [exact Z|destruct (negb (mine i) && _); exact Z..].
      - unfold ppoll. destruct (q_at s); [destruct (q_work s); [destruct (negb (q_owner s) && _)|]|destruct (q_out s)|destruct (q_in s)|]; exact Z. }
    destruct (pstep mine s e) as [s1 o1]. cbn [fst] in Q. specialize (IH s1 Q (fun I => N (or_intror I))). destruct (run s1 es). exact IH.
  Qed.
  (* C113, full statement: what the peer has sent and what the streams have queued gets
     through when the loop is polled and the socket takes it.  Proved while there has been
     no reload or a visitor is there. *)
  Theorem C113_through_partial es s tr : run tun0 es = (s, tr) -> ~ In TReload es \/ q_tasks s <> [] ->
    exists k, let tr' := snd (run tun0 (es ++ repeat (TPoll 1) k)) in wrote tr' = queued tr' /\ wrote_new tr' = queued_new tr' /\ got tr' = came es.
  Proof.
    intros H HH'. assert (HH : q_owner s = true \/ q_tasks s <> []).
    { destruct HH' as [R|R]; [left|now right]. assert (Q := owner_stays es tun0 eq_refl R). rewrite H in Q. exact Q. }
    clear HH'. destruct (drain mine 1 s (le_n _) HH) as (k & (D1 & D2 & D3 & D4)). exists k. assert (B := books_run mine (es ++ repeat (TPoll 1) k) tun0 [] [] books0).
    rewrite prun_app, H in *. destruct (run s (repeat (TPoll 1) k)) as [s2 o2]. cbn [fst snd app] in *. destruct B as [B1 _ B3 B4]. rewrite D1, D2, D3, D4 in *. cbn [plain fresh flat_map] in *. rewrite !app_nil_r in *. rewrite came_app, came_polls, app_nil_r in B4. auto.
  Qed.
  (* false of the code after a reload: once no visitor is left, nothing is read from the
     connection and nothing is written to it, ever, and it stays open *)
  Theorem C113_frozen_refuted es s tr es' : run tun0 es = (s, tr) -> In TReload es -> q_tasks s = [] -> q_at s = AtWork ->
    forall o, In o (snd (run s es')) -> exists f, o = OQueued f.
  Proof.
    intros H R T P o I. assert (O : q_owner s = false).
    { assert (G : forall es s, q_owner s = false -> q_owner (fst (run s es)) = false).
      { induction es0 as [|e es0 IH]; intros s0 Z; [exact Z|]. cbn [prun]. assert (Q : q_owner (fst (pstep mine s0 e)) = false).
        { destruct e as [i|i|i x|i|f|x| |n]; cbn [pstep]; rewrite ?Z; try reflexivity.
          - destruct (mine i && _ && _ && _); assumption || reflexivity.
          - destruct (memN i (q_tasks s0) && _ && _); assumption || reflexivity.
          - destruct (memN i (q_tasks s0) && _ && _); assumption || reflexivity.
          - destruct (memN i (q_tasks s0)); [destruct (memN i (q_made s0)); [destruct (length (q_out s0) <? out_room)%nat|]|]; assumption || reflexivity.
          - destruct f as [i|i x|i]; [assumption|destruct (negb (mine i) && _); assumption || reflexivity..].
          - unfold ppoll. destruct (q_at s0); [destruct (q_work s0); [destruct (negb (q_owner s0) && _)|]|destruct (q_out s0)|destruct (q_in s0)|]; exact Z. }
        destruct (pstep mine s0 e) as [s1 o1]. cbn [fst] in Q. specialize (IH s1 Q). destruct (run s1 es0). exact IH. }
      apply in_split in R. destruct R as (e1 & e2 & ->). rewrite prun_app in H. destruct (run tun0 e1) as [s1 o1]. cbn [prun pstep] in H.
      specialize (G e2 (Tun (q_work s1) (q_out s1) (q_buf s1) (q_in s1) false (q_tasks s1) (q_made s1) (q_at s1)) eq_refl). destruct (run _ e2) as [s2 o2] in *. injection H as <- _. exact G. }
    assert (F := frozen_run mine es' s O T P). rewrite forallb_forall in F. specialize (F o I). destruct o; try discriminate F. eauto.
  Qed.

  (* C114: data, and creations, are written in the order they were queued, and what the
     peer sends is read in the order it came *)
  Theorem C114_fifo es s tr : run tun0 es = (s, tr) ->
    (exists rest, queued tr = wrote tr ++ rest) /\ (exists rest, queued_new tr = wrote_new tr ++ rest) /\ (exists rest, came es = got tr ++ rest).
  Proof. intro H. assert (B := books_run mine es tun0 [] [] books0). rewrite H in B. destruct B as [B1 _ B3 B4]. cbn [fst snd app] in *. repeat split; eexists; eassumption. Qed.
End Props.

(* a visitor overtakes itself *)
Definition ex_run := [TVisitor 2; TPoll 0; TCreate 2; TData 2 7; TPoll 0; TPoll 0; TPoll 0; TPoll 0; TPoll 0; TPoll 9].
Example C51_demo : snd (prun N.even tun0 ex_run) = [OQueued (FCreate 2); OQueued (FData 2 7); OWrote (FData 2 7); OWrote (FCreate 2)] /\
  (let s := fst (prun N.even tun0 [TVisitor 2; TPoll 0]) in q_at s = AtOut /\ q_work s = [] /\ q_out s = [] /\ In 2 (q_tasks s) /\ ~ In 2 (q_made s)).
Proof. split; [reflexivity|]. cbn. intuition. Qed.
Example C51_one_thread_demo : let es := [TVisitor 2; TCreate 2; TData 2 7; TPoll 0; TPoll 0; TPoll 0; TPoll 0; TPoll 0; TPoll 0; TPoll 9] in
  one_thread N.even tun0 es /\ snd (prun N.even tun0 es) = [OQueued (FCreate 2); OQueued (FData 2 7); OWrote (FCreate 2); OWrote (FData 2 7)].
Proof. cbn. intuition. Qed.
(* a stream the client created, a reload, and nothing more *)
Example C113_demo : let es := [TArrive 5; TPoll 0; TPoll 0; TPoll 0; TReload; TArrive 6; TServed (FData 3 1)] in
  snd (prun N.even tun0 es) = [ORead 5; OQueued (FData 3 1)] /\ q_tasks (fst (prun N.even tun0 es)) = [] /\ q_at (fst (prun N.even tun0 es)) = AtWork /\
  snd (prun N.even tun0 (es ++ repeat (TPoll 9) 50)) = [ORead 5; OQueued (FData 3 1)].
Proof. repeat split. Qed.

Print Assumptions C51_one_thread_partial.
Print Assumptions C51_overtaken_refuted.
Print Assumptions C113_through_partial.
Print Assumptions C113_frozen_refuted.
Example C114_case : let es := [TVisitor 2; TCreate 2; TData 2 7; TData 2 8; TArrive 5; TArrive 6] ++ repeat (TPoll 1) 30 in
  let tr := snd (prun N.even tun0 es) in
  queued tr = [FData 2 7; FData 2 8] /\ wrote tr = [FData 2 7; FData 2 8] /\ wrote_new tr = [2] /\ got tr = [5; 6] /\ came es = [5; 6].
Proof. vm_compute. repeat split; reflexivity. Qed.
Print Assumptions C114_fifo.
