(* Lemmas on the polls of one end of a tunnel. *)
From Coq Require Import Lia.
From Verif Require Import Base PollModel PollSpec.
Open Scope N_scope.

Lemma memN_ok x l : memN x l = true <-> In x l.
Proof. unfold memN. rewrite existsb_exists. split; [intros (y & I & E); apply N.eqb_eq in E; now subst|intro I; exists x; split; [exact I|apply N.eqb_refl]]. Qed.

(* all frames written *)
Definition sent (tr : list tout) : list fr := flat_map (fun o => match o with OWrote f => [f] | _ => [] end) tr.
Definition plain (l : list fr) : list fr := flat_map (fun f => match f with FCreate _ => [] | _ => [f] end) l.
Definition fresh (l : list fr) : list N := flat_map (fun f => match f with FCreate id => [id] | _ => [] end) l.

Lemma queued_app a b : queued (a ++ b) = queued a ++ queued b. Proof. apply flat_map_app. Qed.
Lemma wrote_app a b : wrote (a ++ b) = wrote a ++ wrote b. Proof. apply flat_map_app. Qed.
Lemma queued_new_app a b : queued_new (a ++ b) = queued_new a ++ queued_new b. Proof. apply flat_map_app. Qed.
Lemma wrote_new_app a b : wrote_new (a ++ b) = wrote_new a ++ wrote_new b. Proof. apply flat_map_app. Qed.
Lemma got_app a b : got (a ++ b) = got a ++ got b. Proof. apply flat_map_app. Qed.
Lemma came_app a b : came (a ++ b) = came a ++ came b. Proof. apply flat_map_app. Qed.
Lemma sent_app a b : sent (a ++ b) = sent a ++ sent b. Proof. apply flat_map_app. Qed.
Lemma plain_app a b : plain (a ++ b) = plain a ++ plain b. Proof. apply flat_map_app. Qed.
Lemma fresh_app a b : fresh (a ++ b) = fresh a ++ fresh b. Proof. apply flat_map_app. Qed.
Lemma wrote_map l : wrote (map OWrote l) = plain l.
Proof. induction l as [|[a|a x|a] l IH]; cbn; [reflexivity|exact IH|..]; (f_equal; exact IH). Qed.
Lemma wrote_new_map l : wrote_new (map OWrote l) = fresh l.
Proof. induction l as [|[a|a x|a] l IH]; cbn; [reflexivity|f_equal; exact IH|..]; exact IH. Qed.
Lemma sent_map l : sent (map OWrote l) = l.
Proof. induction l as [|a l IH]; cbn; [reflexivity|f_equal; exact IH]. Qed.
Lemma queued_map l : queued (map OWrote l) = []. Proof. induction l; auto. Qed.
Lemma queued_new_map l : queued_new (map OWrote l) = []. Proof. induction l; auto. Qed.
Lemma got_map l : got (map OWrote l) = []. Proof. induction l; auto. Qed.
Lemma in_sent f tr : In f (sent tr) <-> In (OWrote f) tr.
Proof. unfold sent. rewrite in_flat_map. split; [intros ([x|g|g] & I & J); try destruct J as [J|[]]; try now subst|intro I; exists (OWrote f); split; [exact I|now left]]. Qed.
Lemma sent_split tr1 f tr2 : sent (tr1 ++ OWrote f :: tr2) = sent tr1 ++ f :: sent tr2.
Proof. rewrite sent_app. reflexivity. Qed.

Lemma plain_le l : (length (plain l) <= length l)%nat.
Proof. induction l as [|f l IH]; [auto|]. unfold plain in *. destruct f; cbn [flat_map app length]; lia. Qed.
Lemma plain_create id o : plain (FCreate id :: o) = FCreate id :: o -> False.
Proof. intro B. change (plain (FCreate id :: o)) with (plain o) in B. assert (L := plain_le o). rewrite B in L. cbn in L. lia. Qed.
Section Poll.
  Context (mine : N -> bool).
  Notation step := (pstep mine). Notation run := (prun mine).

  Lemma prun_app es : forall s es', run s (es ++ es') = let (s1, o1) := run s es in let (s2, o2) := run s1 es' in (s2, o1 ++ o2).
  Proof.
    induction es as [|e es IH]; intros s es'; cbn [app prun]; [destruct (run s es'); reflexivity|].
    destruct (step s e) as [s1 o1]. rewrite IH. destruct (run s1 es) as [s2 o2]. destruct (run s2 es') as [s3 o3]. now rewrite app_assoc.
  Qed.

  Record books (s : tun) (es : list tev) (tr : list tout) : Prop := {
    b_out : queued tr = wrote tr ++ plain (q_buf s) ++ q_out s;
    b_plain : plain (q_out s) = q_out s;
    b_new : queued_new tr = wrote_new tr ++ fresh (q_buf s) ++ q_work s;
    b_in : came es = got tr ++ q_in s }.
  Lemma books0 : books tun0 [] []. Proof. split; reflexivity. Qed.
  Lemma books_same s es tr s' e : books s es tr -> q_work s' = q_work s -> q_out s' = q_out s -> q_buf s' = q_buf s -> q_in s' = q_in s -> came [e] = [] -> books s' (es ++ [e]) (tr ++ []).
  Proof. intros [A B C D] E1 E2 E3 E4 Z. split; rewrite ?app_nil_r, ?came_app, ?E1, ?E2, ?E3, ?E4, ?Z, ?app_nil_r; assumption. Qed.
  Lemma books_queue s es tr s' e f : books s es tr -> plain [f] = [f] -> q_work s' = q_work s -> q_out s' = q_out s ++ [f] -> q_buf s' = q_buf s -> q_in s' = q_in s -> came [e] = [] -> books s' (es ++ [e]) (tr ++ [OQueued f]).
  Proof.
    intros [A B C D] P E1 E2 E3 E4 Z. destruct f as [id|id x|id]; [discriminate P|..]; split; rewrite ?queued_app, ?wrote_app, ?queued_new_app, ?wrote_new_app, ?got_app, ?came_app, ?E1, ?E2, ?E3, ?E4, ?Z; cbn [queued wrote queued_new wrote_new got flat_map app]; rewrite ?app_nil_r, ?plain_app; try assumption;
    try (rewrite A, <- !app_assoc; reflexivity); rewrite B; reflexivity.
  Qed.
  Lemma books_step e s es tr : books s es tr -> books (fst (step s e)) (es ++ [e]) (tr ++ snd (step s e)).
  Proof.
    intro H. assert (SAME : came [e] = [] -> books s (es ++ [e]) (tr ++ [])) by (intro Z; apply (books_same s es tr s e H); auto).
    destruct e as [id|id|id x|id|f|x| |n]; cbn [pstep].
    - destruct (mine id && _ && _ && _); cbn [fst snd]; [apply (books_same s es tr); auto|apply SAME; reflexivity].
    - destruct (memN id (q_tasks s) && _ && _); cbn [fst snd]; [|apply SAME; reflexivity].
      destruct H as [A B C D]. split; cbn [q_out q_buf q_work q_in]; rewrite ?queued_app, ?wrote_app, ?queued_new_app, ?wrote_new_app, ?got_app, ?came_app; cbn [queued wrote queued_new wrote_new got came flat_map app]; rewrite ?app_nil_r; try assumption.
      rewrite C, <- !app_assoc. reflexivity.
    - destruct (memN id (q_tasks s) && _ && _); cbn [fst snd]; [apply (books_queue s es tr); auto|apply SAME; reflexivity].
    - destruct (memN id (q_tasks s)); [|apply SAME; reflexivity]. destruct (memN id (q_made s)); [|cbn [fst snd]; apply (books_same s es tr); auto].
      destruct (length (q_out s) <? out_room)%nat; cbn [fst snd]; [apply (books_queue s es tr); auto|apply SAME; reflexivity].
    - destruct f as [id|id x|id]; [apply SAME; reflexivity|..]; (destruct (negb (mine id) && _); cbn [fst snd]; [apply (books_queue s es tr); auto|apply SAME; reflexivity]).
    - destruct H as [A B C D]. split; cbn [fst snd q_out q_buf q_work q_in]; rewrite ?app_nil_r; try assumption. rewrite came_app, D, <- app_assoc. reflexivity.
    - cbn [fst snd]. apply (books_same s es tr); auto.
    - destruct H as [A B C D]. unfold ppoll. destruct (q_at s).
      + destruct (q_work s) as [|id w] eqn:W.
        * destruct (negb (q_owner s) && _); cbn [fst snd]; split; cbn [q_out q_buf q_work q_in]; rewrite ?W, ?came_app, ?app_nil_r in *; cbn [came flat_map]; rewrite ?app_nil_r; assumption.
        * cbn [fst snd]. split; cbn [q_out q_buf q_work q_in]; rewrite ?came_app, ?app_nil_r, ?plain_app, ?fresh_app; cbn [plain fresh came flat_map app]; rewrite ?app_nil_r, <- ?app_assoc; try assumption.
      + destruct (q_out s) as [|f o] eqn:W; cbn [fst snd]; [split; cbn [q_out q_buf q_work q_in]; rewrite ?came_app, ?app_nil_r in *; cbn [came flat_map]; rewrite ?app_nil_r; assumption|].
        split; cbn [q_out q_buf q_work q_in]; rewrite ?came_app, ?app_nil_r, ?plain_app, ?fresh_app; cbn [came flat_map]; rewrite ?app_nil_r; try assumption.
        * destruct f as [id|id x|id]; [|rewrite A; cbn [plain flat_map app]; rewrite <- !app_assoc; reflexivity..]. exfalso. exact (plain_create _ _ B).
        * destruct f as [id|id x|id]; [exfalso; exact (plain_create _ _ B)|injection B as B; exact B..]. 
        * destruct f as [id|id x|id]; cbn [fresh flat_map app]; rewrite ?app_nil_r; try assumption. exfalso. exact (plain_create _ _ B).
      + destruct (q_in s) as [|x i] eqn:W; cbn [fst snd]; [split; cbn [q_out q_buf q_work q_in]; rewrite ?came_app, ?app_nil_r in *; cbn [came flat_map]; rewrite ?app_nil_r; assumption|]. split; cbn [q_out q_buf q_work q_in]; rewrite ?queued_app, ?wrote_app, ?queued_new_app, ?wrote_new_app, ?got_app, ?came_app; cbn [queued wrote queued_new wrote_new got came flat_map app]; rewrite ?app_nil_r; try assumption. rewrite D, <- app_assoc. reflexivity.
      + cbn [fst snd]. split; cbn [q_out q_buf q_work q_in]; rewrite ?queued_app, ?wrote_app, ?queued_new_app, ?wrote_new_app, ?got_app, ?came_app, ?wrote_map, ?wrote_new_map, ?queued_map, ?queued_new_map, ?got_map; cbn [came flat_map app]; rewrite ?app_nil_r; try assumption.
        * rewrite A, <- app_assoc. f_equal. rewrite app_assoc, <- plain_app, firstn_skipn. reflexivity.
        * rewrite C, <- app_assoc. f_equal. rewrite app_assoc, <- fresh_app, firstn_skipn. reflexivity.
  Qed.
  Lemma books_run es : forall s es0 tr0, books s es0 tr0 -> books (fst (run s es)) (es0 ++ es) (tr0 ++ snd (run s es)).
  Proof.
    induction es as [|e es IH]; intros s es0 tr0 H; cbn [prun]; [cbn [fst snd]; now rewrite !app_nil_r|].
    assert (Q := books_step e s es0 tr0 H). destruct (step s e) as [s1 o1]. cbn [fst snd] in Q. specialize (IH s1 _ _ Q). destruct (run s1 es) as [s2 o2]. cbn [fst snd] in *.
    rewrite <- app_assoc in IH. cbn [app] in IH. rewrite app_assoc. exact IH.
  Qed.

  (* ---- on one thread, creations come first ---- *)
  Definition about (f : fr) : N := match f with FCreate id | FData id _ | FClose id => id end.
  Definition lined (W : list fr) : Prop := forall W1 f W2, W = W1 ++ f :: W2 -> mine (about f) = true -> (forall id, f <> FCreate id) -> In (FCreate (about f)) W1.
  Record line (s : tun) (tr : list tout) : Prop := {
    l_pc : q_at s <> AtWork -> q_work s = [];
    l_made : forall id, In id (q_made s) -> In (FCreate id) (sent tr ++ q_buf s) \/ In id (q_work s);
    l_out : forall f, In f (q_out s) -> mine (about f) = true -> In (about f) (q_made s);
    l_task : forall id, In id (q_tasks s) -> mine id = true;
    l_ok : lined (sent tr ++ q_buf s) }.
  Lemma line0 : line tun0 [].
  Proof. split; cbn; try tauto. intros W1 f W2 E. destruct W1; discriminate E. Qed.
  Lemma lined_snoc W f : lined W -> (mine (about f) = true -> (forall id, f <> FCreate id) -> In (FCreate (about f)) W) -> lined (W ++ [f]).
  Proof.
    intros L H W1 g W2 E M N. destruct W2 as [|h W2 _] using rev_ind.
    - apply app_inj_tail in E. destruct E as (-> & ->). exact (H M N).
    - rewrite app_comm_cons, app_assoc in E. apply app_inj_tail in E. destruct E as (E & _). exact (L W1 g W2 E M N).
  Qed.
  Lemma line_step e s tr : line s tr -> (match e with TPoll _ => True | _ => q_at s = AtWork end) -> line (fst (step s e)) (tr ++ snd (step s e)).
  Proof.
    intros H Z. assert (SAME : line s (tr ++ [])) by now rewrite app_nil_r.
    assert (QUEUE : forall f s', line s tr -> q_at s' = q_at s -> q_work s' = q_work s -> q_made s' = q_made s -> q_buf s' = q_buf s -> q_out s' = q_out s ++ [f] -> (forall id, In id (q_tasks s') -> In id (q_tasks s)) ->
      (mine (about f) = true -> In (about f) (q_made s)) -> line s' (tr ++ [OQueued f])).
    { intros f s' [A B C T D] E1 E2 E3 E4 E5 E6 M. split; rewrite ?E1, ?E2, ?E3, ?E4, ?sent_app; cbn [sent flat_map]; rewrite ?app_nil_r; try assumption; [rewrite E5; intros g I MG; apply in_app_iff in I; destruct I as [I|[<-|[]]]; [exact (C g I MG)|exact (M MG)]|intros id I; apply T, E6, I]. }
    assert (TASKS : forall s' id, line s tr -> q_at s' = q_at s -> q_work s' = q_work s -> q_made s' = q_made s -> q_buf s' = q_buf s -> q_out s' = q_out s -> (forall i, In i (q_tasks s') -> In i (q_tasks s) \/ (i = id /\ mine id = true)) -> line s' (tr ++ [])).
    { intros s' id [A B C T D] E1 E2 E3 E4 E5 E6. split; rewrite ?E1, ?E2, ?E3, ?E4, ?E5, ?app_nil_r; try assumption. intros i I. destruct (E6 i I) as [J|(-> & J)]; [exact (T i J)|exact J]. }
    destruct e as [id|id|id x|id|f|x| |n]; cbn [pstep].
    - destruct (mine id) eqn:M; [|exact SAME]. destruct (true && _ && _ && _); [|exact SAME]. cbn [fst snd]. apply (TASKS _ id); auto. cbn. intros i [<-|I]; auto.
    - destruct (memN id (q_tasks s)) eqn:M; [|exact SAME]. destruct (true && _ && _); [|exact SAME]. apply memN_ok in M. destruct H as [A B C T D].
      split; cbn [fst snd q_at q_work q_made q_buf q_out q_tasks]; rewrite ?sent_app; cbn [sent flat_map]; rewrite ?app_nil_r; try assumption.
      + intro Q. rewrite Z in Q. contradiction.
      + intros i [<-|I]; [right; apply in_elt|]. destruct (B i I) as [J|J]; [now left|right; apply in_app_iff; now left].
      + intros f I MF. right. exact (C f I MF).
    - destruct (memN id (q_tasks s)) eqn:M; [|exact SAME]. destruct (memN id (q_made s)) eqn:MM; [|exact SAME]. destruct (true && true && _); [|exact SAME]. cbn [fst snd]. apply QUEUE; auto. intros _. cbn. apply memN_ok. exact MM.
    - destruct (memN id (q_tasks s)) eqn:M; [|exact SAME]. destruct (memN id (q_made s)) eqn:MM.
      + destruct (length (q_out s) <? out_room)%nat; [|exact SAME]. cbn [fst snd]. apply QUEUE; auto. * cbn. intros i I. apply filter_In in I. tauto. * intros _. cbn. apply memN_ok. exact MM.
      + cbn [fst snd]. apply (TASKS _ id); auto. cbn. intros i I. apply filter_In in I. tauto.
    - destruct f as [id|id x|id]; [exact SAME|..]; (destruct (mine id) eqn:M; [exact SAME|]; cbn [negb andb]; destruct (length (q_out s) <? out_room)%nat; [|exact SAME]; cbn [fst snd]; apply QUEUE; auto; cbn; congruence).
    - cbn [fst snd]. apply (TASKS _ 0); auto.
    - cbn [fst snd]. apply (TASKS _ 0); auto.
    - destruct H as [A B C T D]. unfold ppoll. destruct (q_at s) eqn:P.
      + destruct (q_work s) as [|id w] eqn:W.
        * destruct (negb (q_owner s) && _); [exact SAME|]. cbn [fst snd]. split; cbn [q_at q_work q_made q_buf q_out q_tasks]; rewrite ?app_nil_r; auto.
        * cbn [fst snd]. split; cbn [q_at q_work q_made q_buf q_out q_tasks]; rewrite ?app_nil_r, ?app_assoc; auto.
          -- intro Q. contradiction.
          -- intros i I. destruct (B i I) as [J|[<-|J]]; [left; apply in_app_iff; now left|left; apply in_elt|now right].
          -- apply lined_snoc; [exact D|]. intros _ N. exfalso. exact (N id eq_refl).
      + assert (W : q_work s = []) by (apply A; discriminate). destruct (q_out s) as [|f o] eqn:O; cbn [fst snd]; split; cbn [q_at q_work q_made q_buf q_out q_tasks]; rewrite ?app_nil_r, ?app_assoc; auto.
        * intros i I. destruct (B i I) as [J|J]; [left; apply in_app_iff; now left|now right].
        * intros g I. apply C. now right.
        * apply lined_snoc; [exact D|]. intros M _. destruct (B _ (C f (or_introl eq_refl) M)) as [J|J]; [exact J|rewrite W in J; destruct J].
      + assert (W : q_work s = []) by (apply A; discriminate). destruct (q_in s) as [|x i]; cbn [fst snd]; split; cbn [q_at q_work q_made q_buf q_out q_tasks]; rewrite ?sent_app; cbn [sent flat_map]; rewrite ?app_nil_r; auto.
      + assert (W : q_work s = []) by (apply A; discriminate). cbn [fst snd]. split; cbn [q_at q_work q_made q_buf q_out q_tasks]; rewrite ?sent_app, ?sent_map, <- ?app_assoc, ?firstn_skipn; auto.
  Qed.
  Lemma line_run es : forall s tr0, line s tr0 -> one_thread mine s es -> line (fst (run s es)) (tr0 ++ snd (run s es)).
  Proof.
    induction es as [|e es IH]; intros s tr0 H O; cbn [prun]; [cbn [fst snd]; now rewrite app_nil_r|]. destruct O as (O1 & O2).
    assert (Q := line_step e s tr0 H O1). destruct (step s e) as [s1 o1]. cbn [fst snd] in *. specialize (IH s1 _ Q O2). destruct (run s1 es) as [s2 o2]. cbn [fst snd] in *. now rewrite app_assoc.
  Qed.

  (* ---- the owner gone and no visitor left ---- *)
  Definition silent (o : tout) : bool := match o with OQueued _ => true | _ => false end.
  Lemma frozen_step s e : q_owner s = false -> q_tasks s = [] -> q_at s = AtWork ->
    let s' := fst (step s e) in q_owner s' = false /\ q_tasks s' = [] /\ q_at s' = AtWork /\ forallb silent (snd (step s e)) = true.
  Proof.
    intros O T P. destruct e as [id|id|id x|id|f|x| |n]; cbn [pstep]; rewrite ?O, ?T; cbn [memN existsb andb]; rewrite ?andb_false_r; cbn [andb fst snd]; auto.
    - destruct f as [id|id x|id]; auto; (destruct (negb (mine id) && _); cbn [fst snd q_owner q_tasks q_at]; auto).
    - unfold ppoll. rewrite P, O, T. destruct (q_work s); cbn [negb andb length Nat.eqb fst snd q_owner q_tasks q_at]; auto.
  Qed.
  Lemma frozen_run es : forall s, q_owner s = false -> q_tasks s = [] -> q_at s = AtWork -> forallb silent (snd (run s es)) = true.
  Proof.
    induction es as [|e es IH]; intros s O T P; cbn [prun]; [reflexivity|].
    destruct (frozen_step s e O T P) as (A & B & C & D). destruct (step s e) as [s1 o1]. cbn [fst snd] in *. specialize (IH s1 A B C). destruct (run s1 es) as [s2 o2]. cbn [snd] in *. rewrite forallb_app, D, IH. reflexivity.
  Qed.

  (* ---- with the owner there, everything gets through ---- *)
  Definition weight (s : tun) : nat := (2 * length (q_work s) + 2 * length (q_out s) + length (q_in s) + length (q_buf s))%nat.
  Definition held (s : tun) : Prop := q_owner s = true \/ q_tasks s <> [].
  Lemma held_open s : held s -> negb (q_owner s) && (length (q_tasks s) =? 0)%nat = false.
  Proof. intros [->|H]; [reflexivity|]. destruct (q_tasks s); [contradiction|]. cbn. now rewrite andb_false_r. Qed.
  Lemma held_poll n s : held s -> held (fst (ppoll n s)).
  Proof. intro H. unfold ppoll, held in *. destruct (q_at s); [destruct (q_work s); [destruct (negb (q_owner s) && _)|]|destruct (q_out s)|destruct (q_in s)|]; exact H. Qed.
  Lemma run_repeat n k s : run s (repeat (TPoll n) (S k)) = let (s1, o1) := ppoll n s in let (s2, o2) := run s1 (repeat (TPoll n) k) in (s2, o1 ++ o2).
  Proof. reflexivity. Qed.
  Lemma repeat_state n a b s : fst (run s (repeat (TPoll n) (a + b))) = fst (run (fst (run s (repeat (TPoll n) a))) (repeat (TPoll n) b)).
  Proof. rewrite repeat_app, prun_app. destruct (run s (repeat (TPoll n) a)) as [s1 o1]. cbn [fst]. destruct (run s1 (repeat (TPoll n) b)). reflexivity. Qed.
  Definition ddone (s : tun) : Prop := q_work s = [] /\ q_out s = [] /\ q_buf s = [] /\ q_in s = [].
  Lemma drain_at n m : (0 < n)%nat -> forall s, (weight s <= m)%nat -> held s -> q_at s = AtWork -> exists k, ddone (fst (run s (repeat (TPoll n) k))).
  Proof.
    intro POS. induction m as [m IH] using lt_wf_ind. intros [w o b i ow ta ma p] L H P. cbn in P. subst p.
    assert (G : forall k, let s1 := fst (run (Tun w o b i ow ta ma AtWork) (repeat (TPoll n) k)) in (weight s1 < m)%nat -> held s1 -> q_at s1 = AtWork -> exists k, ddone (fst (run (Tun w o b i ow ta ma AtWork) (repeat (TPoll n) k)))).
    { intros k s1 W1 H1 P1. destruct (IH (weight s1) W1 s1 (le_n _) H1 P1) as (k' & D). exists (k + k')%nat. rewrite repeat_state. exact D. }
    assert (OPEN := held_open _ H). cbn [q_owner q_tasks] in OPEN. unfold weight in L. cbn [q_work q_out q_buf q_in] in L.
    destruct w as [|id w].
    - destruct o as [|f o].
      + destruct i as [|x i].
        * destruct b as [|f b]; [exists 0%nat; cbn; repeat split|].
          apply (G 4%nat); cbn [repeat prun pstep ppoll q_at q_work q_out q_buf q_in q_owner q_tasks q_made fst snd]; rewrite OPEN; cbn [repeat prun pstep ppoll q_at q_work q_out q_buf q_in q_owner q_tasks q_made fst snd]; try exact H; try reflexivity.
          unfold weight. cbn [q_work q_out q_buf q_in length]. destruct n as [|n]; [lia|]. cbn [skipn]. assert (Q := skipn_length n b). cbn [length] in L. lia.
        * apply (G 3%nat); cbn [repeat prun pstep ppoll q_at q_work q_out q_buf q_in q_owner q_tasks q_made fst snd]; rewrite OPEN; cbn [repeat prun pstep ppoll q_at q_work q_out q_buf q_in q_owner q_tasks q_made fst snd]; try exact H; try reflexivity.
          unfold weight. cbn [q_work q_out q_buf q_in length] in *. lia.
      + apply (G 2%nat); cbn [repeat prun pstep ppoll q_at q_work q_out q_buf q_in q_owner q_tasks q_made fst snd]; rewrite OPEN; cbn [repeat prun pstep ppoll q_at q_work q_out q_buf q_in q_owner q_tasks q_made fst snd]; try exact H; try reflexivity.
        unfold weight. cbn [q_work q_out q_buf q_in length] in *. rewrite app_length. cbn [length]. lia.
    - apply (G 1%nat); cbn [repeat prun pstep ppoll q_at q_work q_out q_buf q_in q_owner q_tasks q_made fst snd]; try exact H; try reflexivity.
      unfold weight. cbn [q_work q_out q_buf q_in length] in *. rewrite app_length. cbn [length]. lia.
  Qed.
  Lemma drain n s : (0 < n)%nat -> held s -> exists k, ddone (fst (run s (repeat (TPoll n) k))).
  Proof.
    intros POS H. assert (A : exists k, q_at (fst (run s (repeat (TPoll n) k))) = AtWork /\ held (fst (run s (repeat (TPoll n) k)))).
    { destruct s as [w o b i ow ta ma p]. destruct p.
      - exists 0%nat. split; [reflexivity|exact H].
      - destruct o as [|f o]; [|exists 1%nat; split; [reflexivity|exact H]]. destruct i as [|x i]; [exists 3%nat|exists 2%nat]; (split; [reflexivity|exact H]).
      - destruct i as [|x i]; [exists 2%nat|exists 1%nat]; (split; [reflexivity|exact H]).
      - exists 1%nat. split; [reflexivity|exact H]. }
    destruct A as (k & P & H'). destruct (drain_at n _ POS _ (le_n _) H' P) as (k' & D). exists (k + k')%nat. rewrite repeat_state. exact D.
  Qed.
  Lemma came_polls n k : came (repeat (TPoll n) k) = [].
  Proof. induction k; auto. Qed.
End Poll.
