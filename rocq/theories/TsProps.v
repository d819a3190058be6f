(* C176: a bridge as a byte stream. *)
From Coq Require Import Lia.
From Verif Require Import Base ProtModel VsModel VsSpec VsProps TsModel TsSpec.
Open Scope N_scope.

(* everything that went into the buffer *)
Definition all_in (tr : list heff) : bytes := flat_map (fun e => match e with HPut b | HTook b | HPutW b => b | _ => [] end) tr.
Lemma step_kept buf e : let '(b, o) := hstep buf e in got o ++ b = buf ++ all_in o.
Proof.
  destruct e as [b|b|n p|b k]; cbn [hstep got all_in flat_map app].
  - rewrite !app_nil_r. reflexivity.
  - rewrite !app_nil_r. reflexivity.
  - unfold hread. destruct buf as [|x buf].
    + destruct p as [| |[|y q]]; cbn [got all_in flat_map app]; rewrite ?app_nil_r; try reflexivity. apply firstn_skipn.
    + cbn [got all_in flat_map app]. rewrite !app_nil_r. apply firstn_skipn.
  - destruct k; cbn [got all_in flat_map app]; now rewrite app_nil_r.
Qed.
Lemma run_kept es : forall buf, let '(b, o) := hrun buf es in got o ++ b = buf ++ all_in o.
Proof.
  induction es as [|e es IH]; intros buf; cbn [hrun]; [cbn; now rewrite app_nil_r|].
  pose proof (step_kept buf e) as H. destruct (hstep buf e) as [b1 o1]. specialize (IH b1). destruct (hrun b1 es) as [b2 o2].
  unfold got, all_in in *. rewrite !flat_map_app. rewrite <- app_assoc, IH, !app_assoc, H. reflexivity.
Qed.
Lemma all_in_read tr : to_write tr = [] -> all_in tr = to_read tr.
Proof.
  induction tr as [|e tr IH]; intros H; [reflexivity|]. cbn [all_in to_read to_write flat_map] in *. apply app_eq_nil in H as [H1 H2]. specialize (IH H2).
  unfold all_in, to_read in IH. destruct e; cbn in *; try (now rewrite IH); try exact IH. subst b. exact IH.
Qed.

(* C176, full statement: what is put for reading and what the stream gives are read in
   order, nothing lost or twice; no read says the end before the stream does; writes go to
   the stream as they are; what is put for writing is written to the stream.  The last part
   is false of the code. *)
Theorem C176_read_partial : forall es buf tr, hrun [] es = (buf, tr) -> to_write tr = [] -> to_read tr = got tr ++ buf.
Proof. intros es buf tr H W. pose proof (run_kept es []) as K. rewrite H in K. cbn [app] in K. now rewrite K, all_in_read. Qed.
(* A read with room gives bytes if there are any, and says the end only if the stream does. *)
Theorem C176_end : forall buf n p, 0 < n ->
  match snd (hstep buf (HRead n p)) with
  | l => (In (HGot []) l <-> buf = [] /\ p = PData []) /\ (In (HGot []) l <-> In HEnded l) /\ (buf <> [] -> exists b, b <> [] /\ l = [HGot b])
  end.
Proof.
  intros buf n p Hn.
  assert (K : forall x (q : bytes), firstn (N.to_nat (N.min (nlen (x :: q)) n)) (x :: q) <> []).
  { intros x q. replace (N.to_nat (N.min (nlen (x :: q)) n)) with (S (Nat.pred (N.to_nat (N.min (nlen (x :: q)) n)))) by (unfold nlen; cbn [length]; lia). discriminate. }
  cbn [hstep]. unfold hread. destruct buf as [|x buf].
  - destruct p as [| |[|y q]]; cbn [snd].
    + split; [|split]; [split; [intros [H|[]]; discriminate|intros [_ H]; discriminate]|split; intros [H|[]]; discriminate|contradiction].
    + split; [|split]; [split; [intros [H|[]]; discriminate|intros [_ H]; discriminate]|split; intros [H|[]]; discriminate|contradiction].
    + split; [|split]; [split; auto; intros _; right; left; reflexivity|split; intros _; [left|right; left]; reflexivity|contradiction].
    + split; [|split]; [| |contradiction].
      * split; [intros [H|[H|[]]]; [discriminate|]|intros [_ H]; discriminate]. injection H as H. destruct (K _ _ H).
      * split; [intros [H|[H|[]]]; [discriminate|]|intros [H|[H|[]]]; discriminate]. injection H as H. destruct (K _ _ H).
  - cbn [snd app]. split; [|split].
    + split; [intros [H|[]]; injection H as H; destruct (K _ _ H)|intros [H _]; discriminate].
    + split; [intros [H|[]]; injection H as H; destruct (K _ _ H)|intros [H|[]]; discriminate].
    + intros _. eexists. split; [apply K|reflexivity].
Qed.
(* Writes: what the stream took, in order, whatever is in the buffers. *)
Theorem C176_writes : forall es buf buf' tr, hrun buf es = (buf', tr) -> passed tr = taken es.
Proof.
  induction es as [|e es IH]; intros buf buf' tr; cbn [hrun]; [intros [= <- <-]; reflexivity|].
  destruct (hstep buf e) as [b1 o1] eqn:E. destruct (hrun b1 es) as [b2 o2] eqn:R. intros [= <- <-]. unfold passed. rewrite flat_map_app. cbn [taken flat_map].
  fold (passed o2) (passed o1). rewrite (IH _ _ _ R). f_equal. destruct e as [b|b|n p|b [k|]]; cbn [hstep] in E; try (injection E as _ <-; reflexivity).
  - unfold hread in E. destruct buf; [destruct p as [| |[|]]|]; injection E as _ <-; reflexivity.
  - injection E as _ <-. cbn. now rewrite app_nil_r.
Qed.
(* False of the code: what is put for writing is read back, *)
Theorem C176_write_refuted : forall w, w <> [] -> exists buf tr, hrun [] [HPutWrite w; HRead (nlen w) PPend] = (buf, tr) /\ got tr = w /\ passed tr = [].
Proof.
  intros w H. destruct w as [|x w]; [contradiction|]. eexists _, _. split; [reflexivity|]. cbn [app hstep fst snd].
  split; [|reflexivity]. unfold got. cbn [flat_map app]. rewrite app_nil_r, N.min_id. unfold nlen. rewrite Nnat.Nat2N.id. apply firstn_all.
Qed.
(* and after the start it is sent into the tunnel, before everything else, as if the socket had
   sent it; the socket gets only what comes out of the tunnel. *)
Theorem C176_started_refuted : forall id w es st tr, w <> [] -> trun (started id [HPutWrite w]) es = (st, tr) ->
  is_prefix (sock_out tr) (payloads (tunnel_in tr)) /\ is_prefix (payloads (tunnel_out tr)) (w ++ sock_in tr).
Proof.
  intros id w es st tr H R. unfold started in R. cbn in R. destruct (C15_bridge id w es st tr R) as ((c & A) & ds & cl & E & _ & (c2 & B) & C). split; [exists c; exact A|].
  assert (K : payloads cl = []). { destruct (t_phase st); [subst cl; reflexivity|subst cl; reflexivity|destruct C as [->|[-> _]]; reflexivity]. }
  exists c2. rewrite E. unfold payloads in *. rewrite flat_map_app, K, app_nil_r. exact B.
Qed.
(* Proved: what is put for reading is sent into the tunnel before what the socket sends. *)
Theorem C176_started_partial : forall id es buf htr es2 st tr, hrun [] es = (buf, htr) -> to_write htr = [] -> trun (started id es) es2 = (st, tr) ->
  is_prefix (got htr ++ payloads (tunnel_out tr)) (to_read htr ++ sock_in tr).
Proof.
  intros id es buf htr es2 st tr H W R. unfold started in R. rewrite H in R. cbn [fst] in R. destruct (C15_bridge id buf es2 st tr R) as (_ & ds & cl & E & _ & (c2 & B) & C).
  assert (K : payloads cl = []). { destruct (t_phase st); [subst cl; reflexivity|subst cl; reflexivity|destruct C as [->|[-> _]]; reflexivity]. }
  exists c2. rewrite (C176_read_partial es buf htr H W), E. unfold payloads in *. rewrite flat_map_app, K, app_nil_r, <- !app_assoc, B. reflexivity.
Qed.

Example C176_demo :
  hrun [] [HPutRead [1; 2; 3]; HRead 2 PPend; HWrite [9; 8] (Some 1); HRead 5 (PData [4]); HRead 5 (PData [4]); HRead 5 PPend; HRead 5 (PData [])] =
    ([], [HPut [1; 2; 3]; HGot [1; 2]; HPassed [9]; HGot [3]; HTook [4]; HGot [4]; HPend; HEnded; HGot []]) /\
  snd (trun (started 7 [HPutWrite [5; 6]]) [TLoopTop; TRoom true; TSockData [1]; TLoopTop; TRoom true; TFrame (FData 7 [3]); TWrote 1]) =
    [XSent (FData 7 [5; 6]); XRead [1]; XSent (FData 7 [1]); XRecv (FData 7 [3]); XWrote [3]].
Proof. vm_compute. split; reflexivity. Qed.
Print Assumptions C176_read_partial.
Print Assumptions C176_end.
Print Assumptions C176_writes.
Print Assumptions C176_write_refuted.
Print Assumptions C176_started_refuted.
Print Assumptions C176_started_partial.
