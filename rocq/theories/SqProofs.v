From Verif Require Import Base SqModel SqSpec.
Open Scope N_scope.

Definition queue (q : sq) : list N := match holder q with Some h => h :: waiting q | None => [] end.
Definition sq_ok (q : sq) : Prop := holder q = None -> waiting q = [].

Lemma sq_step_ok q e : sq_ok q -> sq_ok (fst (sq_step q e)).
Proof.
  unfold sq_ok. destruct q as [ho w]. cbn [holder waiting]. intros H.
  destruct e as [c|c b|c]; destruct ho as [h|]; cbn [sq_step holder waiting fst]; try discriminate; try exact H.
  - destruct (h =? c); cbn [fst holder waiting]; discriminate.
  - destruct (h =? c); [|discriminate]. destruct w; cbn [fst holder waiting]; [reflexivity|discriminate].
Qed.
Lemma run_cons q e es : sq_run q (e :: es) = (fst (sq_run (fst (sq_step q e)) es), snd (sq_step q e) ++ snd (sq_run (fst (sq_step q e)) es)).
Proof. cbn [sq_run]. destruct (sq_step q e) as [q1 o1]. cbn [fst snd]. destruct (sq_run q1 es). reflexivity. Qed.
Lemma sq_run_app q a b : sq_run q (a ++ b) =
  (fst (sq_run (fst (sq_run q a)) b), snd (sq_run q a) ++ snd (sq_run (fst (sq_run q a)) b)).
Proof.
  revert q. induction a as [|e a IH]; intros q; cbn [app].
  - cbn [sq_run fst snd app]. destruct (sq_run q b). reflexivity.
  - rewrite !run_cons, IH. cbn [fst snd]. rewrite app_assoc. reflexivity.
Qed.
(* accepted connections = dropped ones, then the holder, then the waiting ones *)
Lemma sq_step_order q e : sq_ok q ->
  queue q ++ accepted [e] = dropped (snd (sq_step q e)) ++ queue (fst (sq_step q e)).
Proof.
  unfold sq_ok, queue, accepted, dropped. intros H. destruct e as [c|c b|c]; cbn [sq_step flat_map app]; rewrite ?app_nil_r;
    destruct (holder q) as [h|] eqn:E; cbn [fst snd flat_map app holder waiting]; rewrite ?E; try reflexivity.
  - rewrite H by reflexivity. reflexivity.
  - destruct (h =? c); cbn [fst snd flat_map app]; rewrite E; reflexivity.
  - destruct (N.eqb_spec h c) as [->|N]; cbn [fst snd flat_map app]; [|rewrite E; reflexivity].
    destruct (waiting q); cbn [fst snd flat_map app holder waiting]; reflexivity.
Qed.
Lemma acc_app a b : accepted (a ++ b) = accepted a ++ accepted b. Proof. apply flat_map_app. Qed.
Lemma con_app a b : contacted (a ++ b) = contacted a ++ contacted b. Proof. apply flat_map_app. Qed.
Lemma drop_app a b : dropped (a ++ b) = dropped a ++ dropped b. Proof. apply flat_map_app. Qed.
Lemma sq_run_ok q es : sq_ok q -> sq_ok (fst (sq_run q es)).
Proof. revert q. induction es as [|e es IH]; intros q H; [exact H|]. rewrite run_cons. apply IH, sq_step_ok, H. Qed.
Lemma sq_run_order es : forall q, sq_ok q -> queue q ++ accepted es = dropped (snd (sq_run q es)) ++ queue (fst (sq_run q es)).
Proof.
  induction es as [|e es IH]; intros q H; [cbn; rewrite app_nil_r; reflexivity|].
  rewrite run_cons. cbn [fst snd]. rewrite drop_app, <- app_assoc, <- IH by (apply sq_step_ok, H).
  rewrite app_assoc, <- sq_step_order by exact H. change (e :: es) with ([e] ++ es). rewrite acc_app, app_assoc. reflexivity.
Qed.
Definition held (q : sq) : list N := match holder q with Some h => [h] | None => [] end.
Lemma sq_step_contacted q e : held q ++ contacted (snd (sq_step q e)) = dropped (snd (sq_step q e)) ++ held (fst (sq_step q e)).
Proof.
  unfold held, contacted, dropped. destruct e as [c|c b|c]; cbn [sq_step flat_map app]; destruct (holder q) as [h|] eqn:E;
    cbn [fst snd flat_map app holder]; rewrite ?E, ?app_nil_r; try reflexivity.
  - destruct (h =? c); cbn [fst snd flat_map app]; rewrite E; reflexivity.
  - destruct (N.eqb_spec h c) as [->|N]; cbn [fst snd flat_map app]; [|rewrite E; reflexivity].
    destruct (waiting q); reflexivity.
Qed.
Lemma sq_run_contacted es : forall q, held q ++ contacted (snd (sq_run q es)) = dropped (snd (sq_run q es)) ++ held (fst (sq_run q es)).
Proof.
  induction es as [|e es IH]; intros q; [cbn; rewrite app_nil_r; reflexivity|].
  rewrite run_cons. cbn [fst snd]. rewrite con_app, drop_app, app_assoc, sq_step_contacted, <- !app_assoc, IH. reflexivity.
Qed.
Lemma contacted_firstn es : contacted (snd (sq_run sq_init es)) =
  firstn (S (length (dropped (snd (sq_run sq_init es))))) (accepted es).
Proof.
  pose proof (sq_run_order es sq_init (fun _ => eq_refl)) as A. pose proof (sq_run_contacted es sq_init) as B.
  pose proof (sq_run_ok sq_init es (fun _ => eq_refl)) as C. cbn [queue held sq_init holder app] in A, B.
  rewrite A, B. generalize (dropped (snd (sq_run sq_init es))). intros d. unfold queue, held, sq_ok in *.
  destruct (holder (fst (sq_run sq_init es))) as [h|].
  - induction d as [|x d IH]; [reflexivity|]. cbn [app length]. change (firstn (S (S (length d))) (x :: d ++ h :: waiting (fst (sq_run sq_init es))))
      with (x :: firstn (S (length d)) (d ++ h :: waiting (fst (sq_run sq_init es)))). rewrite <- IH. reflexivity.
  - rewrite !app_nil_r. symmetry. apply firstn_all2. lia.
Qed.
Lemma blocked es : forall q c, holder q = Some c -> ~ In (SFinish c) es ->
  Forall (fun x => for_conn x = c) (snd (sq_run q es)) /\ holder (fst (sq_run q es)) = Some c.
Proof.
  induction es as [|e es IH]; intros q c H N; [split; [constructor|exact H]|].
  rewrite run_cons. cbn [fst snd].
  assert (S1 : holder (fst (sq_step q e)) = Some c /\ Forall (fun x => for_conn x = c) (snd (sq_step q e))).
  { destruct e as [d|d b|d]; cbn [sq_step]; rewrite H.
    - split; [reflexivity|constructor].
    - destruct (N.eqb_spec c d) as [<-|_]; cbn [fst snd]; (split; [exact H|]); repeat constructor.
    - destruct (N.eqb_spec c d) as [<-|_]; [exfalso; apply N; left; reflexivity|]. split; [exact H|constructor]. }
  destruct S1 as [A B]. destruct (IH _ _ A) as [F G]; [intros I; apply N; right; exact I|].
  split; [apply Forall_app; split; assumption|exact G].
Qed.
Lemma passed_app c a b : passed_for c (a ++ b) = passed_for c a ++ passed_for c b.
Proof. unfold passed_for. rewrite flat_map_app, concat_app. reflexivity. Qed.
Lemma sent_app c a b : sent_by c (a ++ b) = sent_by c a ++ sent_by c b.
Proof. unfold sent_by. rewrite flat_map_app, concat_app. reflexivity. Qed.
Lemma holder_passes es : forall q c, holder q = Some c -> ~ In (SFinish c) es ->
  passed_for c (snd (sq_run q es)) = sent_by c es.
Proof.
  induction es as [|e es IH]; intros q c H N; [reflexivity|].
  rewrite run_cons. cbn [fst snd]. rewrite passed_app. change (e :: es) with ([e] ++ es). rewrite sent_app.
  assert (N' : ~ In (SFinish c) es) by (intros I; apply N; right; exact I).
  destruct (blocked [e] q c H) as [_ A]; [intros [I|[]]; apply N; left; exact I|].
  rewrite run_cons in A. cbn [fst] in A. cbn [sq_run fst] in A. rewrite (IH _ _ A N'). f_equal.
  destruct e as [d|d b|d]; cbn [sq_step]; rewrite H; try reflexivity.
  - rewrite N.eqb_sym. unfold passed_for, sent_by. destruct (N.eqb_spec d c) as [->|Hd]; cbn [fst snd flat_map app];
      rewrite ?N.eqb_refl; [reflexivity|]. destruct (N.eqb_spec d c); [contradiction|reflexivity].
  - destruct (N.eqb_spec c d) as [<-|_]; [exfalso; apply N; left; reflexivity|]. reflexivity.
Qed.
