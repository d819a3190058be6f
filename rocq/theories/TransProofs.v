(* Lemmas about HTTP visitors at the tunnel server. *)
From Coq Require Import String.
From Verif Require Import Base Text TextOps ProtModel ConfModel CsModel CcProofs TransModel TransSpec.
Open Scope N_scope.

Lemma leqb_refl' h : leqb h h = true.
Proof. apply leqb_ok. reflexivity. Qed.
Lemma leqb_false a b : leqb a b = false -> a <> b.
Proof. intros E ->. rewrite leqb_refl' in E. discriminate. Qed.
Lemma last_owns ms h m : last_match (fun m => leqb (m_domain m) h) ms None = Some m -> owns ms h m.
Proof.
  intros H. pose proof (last_match_spec (fun m => leqb (m_domain m) h) ms None) as P. rewrite H in P.
  destruct P as [(a & b & -> & Hm & Hb)|[P _]]; [|discriminate].
  exists a, b. split; [reflexivity|]. split; [apply leqb_ok; exact Hm|].
  eapply Forall_impl; [|exact Hb]. intros m' E. exact (leqb_false _ _ E).
Qed.
Lemma last_unknown ms h : last_match (fun m => leqb (m_domain m) h) ms None = None -> unknown ms h.
Proof.
  intros H. pose proof (last_match_spec (fun m => leqb (m_domain m) h) ms None) as P. rewrite H in P.
  eapply Forall_impl; [|exact (proj2 P)]. intros m' E. exact (leqb_false _ _ E).
Qed.
Lemma owns_known ms h m : owns ms h m -> ~ unknown ms h.
Proof.
  intros (a & b & -> & E & _) U. unfold unknown in U. rewrite Forall_forall in U.
  apply (U m); [apply in_app_iff; right; left; reflexivity|exact E].
Qed.
Lemma owns_unique ms h m m' : owns ms h m -> owns ms h m' -> m = m'.
Proof.
  intros (a & b & E & H1 & H2) (a' & b' & E' & H1' & H2'). subst ms.
  revert a' E'. induction a as [|x a IH]; intros a' E'.
  - destruct a' as [|y a']; cbn in E'; [congruence|].
    injection E' as <- ->. rewrite Forall_forall in H2. exfalso.
    apply (H2 m'); [apply in_app_iff; right; left; reflexivity|exact H1'].
  - destruct a' as [|y a']; cbn in E'; injection E' as -> E'.
    + rewrite Forall_forall in H2'. exfalso. apply (H2' m); [rewrite <- E'; apply in_app_iff; right; left; reflexivity|exact H1].
    + exact (IH a' E').
Qed.
Lemma owns_last ms h m : owns ms h m -> last_match (fun m => leqb (m_domain m) h) ms None = Some m.
Proof.
  intros H. destruct (last_match (fun m => leqb (m_domain m) h) ms None) as [m'|] eqn:E.
  - f_equal. symmetry. exact (owns_unique _ _ _ _ H (last_owns _ _ _ E)).
  - destruct (owns_known _ _ _ H (last_unknown _ _ E)).
Qed.
Lemma unknown_last ms h : unknown ms h -> last_match (fun m => leqb (m_domain m) h) ms None = None.
Proof.
  intros H. destruct (last_match (fun m => leqb (m_domain m) h) ms None) as [m'|] eqn:E; [|reflexivity].
  destruct (owns_known _ _ _ (last_owns _ _ _ E) H).
Qed.

Section P.
Context (same : text -> text -> bool) (conv : text -> text) (s : N).
Notation tstep := (tstep same conv s).
Notation trun := (trun same conv s).
Notation served := (served same conv).

Lemma regs_only es : forall st, Forall is_reg es ->
  fst (trun st es) = TSt (t_first st) (t_map st) (now (t_maps st) es) (t_dead st).
Proof.
  induction es as [|e es IH]; intros st H; [destruct st; reflexivity|].
  apply Forall_cons_iff in H as [He H]. destruct e as [ms|]; [|contradiction]. cbn [TransModel.trun TransModel.tstep].
  specialize (IH (TSt (t_first st) (t_map st) ms (t_dead st)) H). destruct (trun _ es). exact IH.
Qed.
Lemma ruled_request rs : forall h, rewrite_request same conv (map to_cheader rs) h = ruled same conv true rs h.
Proof.
  unfold rewrite_request, ruled. induction rs as [|r rs IH]; intros h; [reflexivity|].
  cbn [map fold_left]. rewrite IH. f_equal.
  destruct r as [[] [] k v]; reflexivity.
Qed.
Lemma ruled_response rs : forall h, rewrite_response same conv (map to_cheader rs) h = ruled same conv false rs h.
Proof.
  unfold rewrite_response, ruled. induction rs as [|r rs IH]; intros h; [reflexivity|].
  cbn [map fold_left]. rewrite IH. f_equal.
  destruct r as [[] [] k v]; reflexivity.
Qed.
Lemma forward_served m h back : tforward same conv (Some m) h back = served m h back.
Proof.
  destruct back; unfold tforward, TransSpec.served, rules; rewrite ?ruled_request, ?ruled_response; reflexivity.
Qed.

Definition lives (e : tev) : Prop := match e with TReq _ _ BGone => False | _ => True end.
Lemma chosen_stays m es : forall st, t_first st = false -> t_map st = Some m -> t_dead st = false ->
  Forall lives es -> t_first (fst (trun st es)) = false /\ t_map (fst (trun st es)) = Some m /\ t_dead (fst (trun st es)) = false.
Proof.
  induction es as [|e es IH]; intros st H1 H2 H3 H; [repeat split; assumption|].
  apply Forall_cons_iff in H as [He H]. cbn [TransModel.trun].
  assert (K : let st1 := fst (tstep st e) in t_first st1 = false /\ t_map st1 = Some m /\ t_dead st1 = false).
  { destruct e as [ms|host h back]; cbn [TransModel.tstep]; [repeat split; assumption|].
    rewrite H1, H2, H3. cbn. destruct back; try contradiction; repeat split. }
  destruct (tstep st e) as [st1 o]. cbn [fst] in K. destruct K as (K1 & K2 & K3).
  specialize (IH st1 K1 K2 K3 H). destruct (trun st1 es). exact IH.
Qed.
Lemma trun_app e1 e2 : forall st, trun st (e1 ++ e2) =
  (fst (trun (fst (trun st e1)) e2), snd (trun st e1) ++ snd (trun (fst (trun st e1)) e2)).
Proof.
  induction e1 as [|e e1 IH]; intros st; cbn [app TransModel.trun fst snd].
  - destruct (trun st e2); reflexivity.
  - destruct (tstep st e) as [st1 o]. rewrite IH. destruct (trun st1 e1). reflexivity.
Qed.
Lemma trun_one st e : trun st [e] = (fst (tstep st e), [snd (tstep st e)]).
Proof. cbn [TransModel.trun]. destruct (tstep st e). reflexivity. Qed.

Lemma first_choice ms regs host h back m : Forall is_reg regs -> owns (now ms regs) (host_of host) m ->
  tstep (fst (trun (t_init ms) regs)) (TReq host h back) =
  (TSt false (Some m) (now ms regs) (goes_dead (Some m) back), TCreate s (host_of host) :: served m h back).
Proof.
  intros Hr Ho. rewrite (regs_only regs (t_init ms) Hr). cbn [TransModel.tstep t_init t_dead t_first t_maps].
  fold (host_of host). rewrite (owns_last _ _ _ Ho), forward_served. reflexivity.
Qed.
Lemma first_unknown ms regs host h back : Forall is_reg regs -> unknown (now ms regs) (host_of host) ->
  tstep (fst (trun (t_init ms) regs)) (TReq host h back) = (TSt false None (now ms regs) false, [not_found]).
Proof.
  intros Hr Ho. rewrite (regs_only regs (t_init ms) Hr). cbn [TransModel.tstep t_init t_dead t_first t_maps t_map].
  fold (host_of host). rewrite (unknown_last _ _ Ho). reflexivity.
Qed.

Lemma later_request ms regs host1 h1 back1 m es host h back :
  Forall is_reg regs -> owns (now ms regs) (host_of host1) m -> back1 <> BGone -> Forall lives es ->
  snd (tstep (fst (trun (t_init ms) (regs ++ TReq host1 h1 back1 :: es))) (TReq host h back)) = served m h back.
Proof.
  intros Hr Ho Hb Hl. rewrite trun_app. cbn [fst]. change (TReq host1 h1 back1 :: es) with ([TReq host1 h1 back1] ++ es).
  rewrite trun_app, trun_one. cbn [fst]. rewrite (first_choice _ _ _ _ _ _ Hr Ho). cbn [fst].
  destruct (chosen_stays m es (TSt false (Some m) (now ms regs) (goes_dead (Some m) back1))) as (A & B & C);
    try reflexivity; try assumption; [destruct back1; try reflexivity; contradiction|].
  cbn [TransModel.tstep]. rewrite A, B, C, forward_served. reflexivity.
Qed.

Lemma lost_stays es : forall st, t_first st = false -> t_map st = None -> t_dead st = false ->
  t_first (fst (trun st es)) = false /\ t_map (fst (trun st es)) = None /\ t_dead (fst (trun st es)) = false.
Proof.
  induction es as [|e es IH]; intros st H1 H2 H3; [repeat split; assumption|].
  cbn [TransModel.trun].
  assert (K : let st1 := fst (tstep st e) in t_first st1 = false /\ t_map st1 = None /\ t_dead st1 = false).
  { destruct e as [ms|host h back]; cbn [TransModel.tstep]; [repeat split; assumption|].
    rewrite H1, H2, H3. cbn. repeat split. }
  destruct (tstep st e) as [st1 o]. cbn [fst] in K. destruct K as (K1 & K2 & K3).
  specialize (IH st1 K1 K2 K3). destruct (trun st1 es). exact IH.
Qed.

Definition opens (o : list tout) : list (N * text) :=
  flat_map (fun x => match x with TCreate s h => [(s, h)] | _ => [] end) o.
Lemma opens_forward m h back : opens (tforward same conv m h back) = [].
Proof. destruct m as [m|]; [destruct back|]; reflexivity. Qed.
Lemma opens_app a b : opens (a ++ b) = opens a ++ opens b.
Proof. apply flat_map_app. Qed.
Lemma no_more es : forall st, t_first st = false -> opens (List.concat (snd (trun st es))) = [].
Proof.
  induction es as [|e es IH]; intros st H; [reflexivity|]. cbn [TransModel.trun].
  assert (K : t_first (fst (tstep st e)) = false /\ opens (snd (tstep st e)) = []).
  { destruct e as [ms|host h back]; cbn [TransModel.tstep]; [split; [exact H|reflexivity]|].
    destruct (t_dead st); [split; [exact H|reflexivity]|]. rewrite H. split; [reflexivity|apply opens_forward]. }
  destruct (tstep st e) as [st1 o]. cbn [fst snd] in K. destruct K as [K1 K2]. specialize (IH st1 K1).
  destruct (trun st1 es) as [st2 os]. cbn [snd List.concat] in *. rewrite opens_app, K2, IH. reflexivity.
Qed.
Lemma one_stream es : forall st, (length (opens (List.concat (snd (trun st es)))) <= 1)%nat.
Proof.
  assert (G : forall st, (length (opens (List.concat (snd (trun st es)))) <= 1)%nat).
  { induction es as [|e es IH]; intros st; [cbn; lia|]. destruct (t_first st) eqn:Hf.
    2:{ rewrite no_more by exact Hf. cbn; lia. }
    cbn [TransModel.trun]. destruct e as [ms|host h back]; cbn [TransModel.tstep].
    - specialize (IH (TSt (t_first st) (t_map st) ms (t_dead st))). destruct (trun _ es) as [st2 os]. exact IH.
    - destruct (t_dead st); [specialize (IH st); destruct (trun st es); exact IH|]. rewrite Hf.
      destruct (last_match _ _ _) as [m|].
      + match goal with |- context [trun ?x es] => pose proof (no_more es x eq_refl) as E; destruct (trun x es) as [st2 os] end.
        cbn [snd List.concat] in *. rewrite opens_app, E, app_nil_r. change (TCreate s ?x :: ?l) with ([TCreate s x] ++ l).
        rewrite opens_app, opens_forward. cbn; lia.
      + match goal with |- context [trun ?x es] => pose proof (no_more es x eq_refl) as E; destruct (trun x es) as [st2 os] end.
        cbn [snd List.concat] in *. rewrite opens_app, E. cbn; lia. }
  exact G.
Qed.
End P.
