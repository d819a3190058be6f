(* Proofs about where requests go. *)
From Verif Require Import Base Text TextOps ConfModel AddrModel HealthModel HealthSpec HealthProofs TgtModel TgtSpec.
Open Scope N_scope.

Lemma meant_addr us d c : meant us d c -> get_upstream_addr us d = c.
Proof.
  intros (pre & n & post & -> & [[-> ->]|(D & -> & H)]).
  - cbn [app get_upstream_addr]. destruct (leqb n []); reflexivity.
  - induction pre as [|[m x] pre IH]; cbn [app get_upstream_addr map fst] in *.
    + assert (E : leqb d d = true) by (apply leqb_ok; reflexivity). rewrite E. reflexivity.
    + destruct (leqb m d) eqn:E; [apply leqb_ok in E; subst; exfalso; apply H; left; reflexivity|].
      destruct d as [|y d]; [contradiction|]. apply IH. intros X. apply H. right. exact X.
Qed.
Lemma unknown_addr us d : unknown us d -> get_upstream_addr us d = Ok None.
Proof.
  intros [H H0]. destruct d as [|y d].
  - rewrite (H0 eq_refl). reflexivity.
  - clear H0. induction us as [|[m x] us IH]; [reflexivity|]. cbn [get_upstream_addr map fst] in *.
    destruct (leqb m (y :: d)) eqn:E; [apply leqb_ok in E; subst; exfalso; apply H; left; reflexivity|].
    apply IH. intros X. apply H. right. exact X.
Qed.
(* every name stands for one upstream or none *)
Lemma meant_or us d : (exists c, meant us d c) \/ unknown us d.
Proof.
  destruct d as [|y d].
  - destruct us as [|[n c] us]; [right; split; [intros []|reflexivity]|]. left. exists c, [], n, us. split; [reflexivity|]. left. split; reflexivity.
  - induction us as [|[n c] us IH]; [right; split; [intros []|discriminate]|].
    destruct (leqb n (y :: d)) eqn:E.
    + apply leqb_ok in E. subst. left. exists c, [], (y :: d), us. split; [reflexivity|]. right. repeat split; [discriminate|intros []].
    + assert (N0 : n <> y :: d) by (intros ->; assert (Q : leqb (y :: d) (y :: d) = true) by (apply leqb_ok; reflexivity); congruence).
      destruct IH as [(c' & pre & m & post & -> & [[A _]|(A & B & C)])|[A _]]; [discriminate| |].
      * left. exists c', ((n, c) :: pre), m, post. split; [reflexivity|]. right. repeat split; [exact A|exact B|].
        intros [X|X]; [exact (N0 X)|exact (C X)].
      * right. split; [intros [X|X]; [exact (N0 X)|exact (A X)]|discriminate].
Qed.

Lemma speaks_ok u asked s : speaks u asked s -> forall d p, with_scheme (Url (u_scheme u) d p) asked = Url s d p.
Proof. intros [[<- H]|[H ->]] d p; unfold with_scheme; cbn; [destruct (u_scheme u); [contradiction|reflexivity|reflexivity]|rewrite H; reflexivity]. Qed.

(* ---- websockets ---- *)
Lemma sent_app d a b : sent d (a ++ b) = sent d a ++ sent d b.
Proof. apply flat_map_app. Qed.
Lemma taken_app d a b : taken d (a ++ b) = taken d a ++ taken d b.
Proof. apply flat_map_app. Qed.

Lemma passed_same c : same_frame c (passed_on c).
Proof. destruct c; constructor. Qed.

(* one step: what was waiting, then what was taken, is what was sent, then what waits *)
Lemma wstep_client s e : let '(s1, o) := wstep s e in w_relay s = true -> waiting Client s ++ map passed_on (taken Backend o) = sent Client o ++ waiting Client s1.
Proof.
  destruct s as [r u d g]. destruct e as [[|] c|[|]|]; cbn [wstep w_relay w_gone w_up w_down negb].
  - destruct r; cbn [negb]; [|discriminate]. destruct g; [destruct c; intros _; cbn; apply app_nil_r|].
    destruct (length u <? chan_cap)%nat; intros _; cbn; apply app_nil_r.
  - destruct r; cbn [negb orb]; [|discriminate]. destruct g; [intros _; cbn; apply app_nil_r|].
    destruct (length d <? chan_cap)%nat; intros _; cbn; [reflexivity|apply app_nil_r].
  - destruct d; intros _; cbn; [reflexivity|rewrite app_nil_r; reflexivity].
  - destruct g; [intros _; cbn; apply app_nil_r|]. destruct u; intros _; cbn; apply app_nil_r.
  - intros _. cbn. apply app_nil_r.
Qed.
Lemma wstep_relay s e : w_relay (fst (wstep s e)) = w_relay s.
Proof.
  destruct s as [r u d g]. destruct e as [[|] c|[|]|]; cbn [wstep w_relay w_gone w_up w_down].
  - destruct (negb r); [reflexivity|]. destruct g; [reflexivity|]. destruct (length u <? chan_cap)%nat; reflexivity.
  - destruct (negb r || g); [reflexivity|]. destruct (length d <? chan_cap)%nat; reflexivity.
  - destruct d; reflexivity.
  - destruct g; [reflexivity|]. destruct u; reflexivity.
  - reflexivity.
Qed.
Lemma wrun_client es : forall s, w_relay s = true ->
  waiting Client s ++ map passed_on (taken Backend (snd (wrun s es))) = sent Client (snd (wrun s es)) ++ waiting Client (fst (wrun s es)).
Proof.
  induction es as [|e es IH]; intros s R; [cbn; apply app_nil_r|]. cbn [wrun].
  pose proof (wstep_client s e) as A. pose proof (wstep_relay s e) as B. destruct (wstep s e) as [s1 o]. cbn [fst] in B.
  specialize (IH s1 ltac:(congruence)). destruct (wrun s1 es) as [s2 os]. cbn [fst snd] in *.
  rewrite taken_app, sent_app, map_app, app_assoc, (A R), <- !app_assoc, IH. reflexivity.
Qed.
(* towards the backend: as long as it is there *)
Lemma wstep_backend s e : let '(s1, o) := wstep s e in w_relay s = true -> w_gone s = false -> e <> WGone ->
  waiting Backend s ++ map passed_on (taken Client o) = sent Backend o ++ waiting Backend s1 /\ w_gone s1 = false.
Proof.
  destruct s as [r u d g]. destruct e as [[|] c|[|]|]; cbn [wstep w_relay w_gone w_up w_down negb].
  - destruct r; cbn [negb]; [|discriminate]. destruct g; [discriminate|].
    destruct (length u <? chan_cap)%nat; intros _ _ _; cbn; (split; [|reflexivity]); [reflexivity|apply app_nil_r].
  - destruct r; cbn [negb orb]; [|discriminate]. destruct g; [discriminate|].
    destruct (length d <? chan_cap)%nat; intros _ _ _; cbn; (split; [|reflexivity]); apply app_nil_r.
  - destruct d; cbn; intros _ G _; (split; [|exact G]); apply app_nil_r.
  - destruct g; [intros _ X; discriminate|]. destruct u; intros _ _ _; cbn; (split; [|reflexivity]); [reflexivity|rewrite app_nil_r; reflexivity].
  - intros _ _ X. contradiction.
Qed.
Lemma wrun_backend es : forall s, w_relay s = true -> w_gone s = false -> ~ In WGone es ->
  waiting Backend s ++ map passed_on (taken Client (snd (wrun s es))) = sent Backend (snd (wrun s es)) ++ waiting Backend (fst (wrun s es)) /\
  w_gone (fst (wrun s es)) = false.
Proof.
  induction es as [|e es IH]; intros s R G H; [cbn; split; [apply app_nil_r|exact G]|]. cbn [wrun].
  pose proof (wstep_backend s e) as A. pose proof (wstep_relay s e) as B. destruct (wstep s e) as [s1 o]. cbn [fst] in B.
  destruct (A R G) as [A1 A2]; [intros ->; apply H; left; reflexivity|].
  specialize (IH s1 ltac:(congruence) A2 (fun X => H (or_intror X))). destruct (wrun s1 es) as [s2 os]. cbn [fst snd] in *.
  destruct IH as [I1 I2]. split; [|exact I2].
  rewrite taken_app, sent_app, map_app, app_assoc, A1, <- !app_assoc, I1. reflexivity.
Qed.
(* once it is gone nothing more is sent to it *)
Lemma wrun_gone es : forall s, w_gone s = true -> sent Backend (snd (wrun s es)) = [] /\ w_gone (fst (wrun s es)) = true.
Proof.
  induction es as [|e es IH]; intros s G; [split; [reflexivity|exact G]|]. cbn [wrun].
  assert (A : sent Backend (snd (wstep s e)) = [] /\ w_gone (fst (wstep s e)) = true).
  { destruct s as [r u d g]. cbn in G. subst g. destruct e as [[|] c|[|]|]; cbn [wstep w_relay w_gone w_up w_down].
    - destruct (negb r); [split; reflexivity|]. destruct c; split; reflexivity.
    - rewrite orb_true_r. split; reflexivity.
    - destruct d; split; reflexivity.
    - split; reflexivity.
    - split; reflexivity. }
  destruct (wstep s e) as [s1 o]. destruct A as [A1 A2]. cbn [fst snd] in *. specialize (IH s1 A2). destruct (wrun s1 es) as [s2 os]. cbn [fst snd] in *.
  rewrite sent_app, A1. exact IH.
Qed.
Lemma wrun_app a : forall s b, wrun s (a ++ b) =
  let '(s1, o1) := wrun s a in let '(s2, o2) := wrun s1 b in (s2, o1 ++ o2).
Proof.
  induction a as [|e a IH]; intros s b; [cbn; destruct (wrun s b); reflexivity|]. cbn [app wrun]. destruct (wstep s e) as [s1 o].
  rewrite IH. destruct (wrun s1 a) as [s2 os]. destruct (wrun s2 b) as [s3 os']. rewrite app_assoc. reflexivity.
Qed.
(* never more than ten messages wait *)
Lemma wrun_bound es : forall s d, (length (w_up s) <= 10)%nat /\ (length (w_down s) <= 10)%nat -> (length (waiting d (fst (wrun s es))) <= 10)%nat.
Proof.
  induction es as [|e es IH]; intros s d H; [destruct d; cbn; apply H|]. cbn [wrun].
  assert (A : (length (w_up (fst (wstep s e))) <= 10)%nat /\ (length (w_down (fst (wstep s e))) <= 10)%nat).
  { destruct s as [r u dn g]. cbn [w_up w_down] in H. destruct e as [[|] c|[|]|]; cbn [wstep w_relay w_gone w_up w_down].
    - destruct (negb r); [exact H|]. destruct g; [exact H|]. destruct (length u <? chan_cap)%nat eqn:E; cbn [fst w_up w_down]; [|exact H].
      apply Nat.ltb_lt in E. unfold chan_cap in E. rewrite app_length. cbn. lia.
    - destruct (negb r || g); [exact H|]. destruct (length dn <? chan_cap)%nat eqn:E; cbn [fst w_up w_down]; [|exact H].
      apply Nat.ltb_lt in E. unfold chan_cap in E. rewrite app_length. cbn. lia.
    - destruct dn; cbn in *; lia.
    - destruct g; [exact H|]. destruct u; cbn in *; lia.
    - cbn. lia. }
  destruct (wstep s e) as [s1 o]. cbn [fst] in A. specialize (IH s1 d A). destruct (wrun s1 es). exact IH.
Qed.
(* without a backend *)
Lemma wrun_deaf es : forall s, w_relay s = false -> w_up s = [] -> w_down s = [] ->
  sent Client (snd (wrun s es)) = [] /\ sent Backend (snd (wrun s es)) = [] /\ taken Client (snd (wrun s es)) = arrived Client es /\
  (forall c, ~ In (WFailed c) (snd (wrun s es))).
Proof.
  induction es as [|e es IH]; intros s R U D; [cbn; repeat split; intros c []|]. cbn [wrun].
  destruct s as [r u d g]. cbn in R, U, D. subst.
  assert (A : exists g' o, wstep (WSt false [] [] g) e = (WSt false [] [] g', o) /\ sent Client o = [] /\ sent Backend o = [] /\
     taken Client o = arrived Client [e] /\ (forall c, ~ In (WFailed c) o)).
  { destruct e as [[|] c|[|]|]; cbn [wstep w_relay w_gone w_up w_down negb orb].
    - do 2 eexists. split; [reflexivity|]. cbn. repeat split. intros c' [X|[]]; discriminate.
    - do 2 eexists. split; [reflexivity|]. cbn. repeat split. intros c' [].
    - do 2 eexists. split; [reflexivity|]. cbn. repeat split. intros c' [].
    - exists g, []. destruct g; (split; [reflexivity|]); cbn; repeat split; intros c' [].
    - do 2 eexists. split; [reflexivity|]. cbn. repeat split. intros c' []. }
  destruct A as (g' & o & -> & A1 & A2 & A3 & A4). destruct (IH (WSt false [] [] g') eq_refl eq_refl eq_refl) as (I1 & I2 & I3 & I4).
  destruct (wrun (WSt false [] [] g') es) as [s2 os]. cbn [snd] in *.
  rewrite !sent_app, taken_app, A1, A2, A3, I1, I2, I3. repeat split.
  - destruct e as [[|] c|[|]|]; reflexivity.
  - intros c X. apply in_app_iff in X as [X|X]; [exact (A4 c X)|exact (I4 c X)].
Qed.

(* ---- passive health and the single member of reverse-proxy ---- *)
Definition rec_fine (v : hrec) : Prop :=
  (3 <= h_fall v -> h_failed v = true) /\ (2 <= h_rise v -> h_failed v = false /\ h_fall v = 0).
Definition all_fine (h : hcheck) : Prop :=
  c_timeout h = 60 /\ c_max_fails h = 3 /\ c_min_rises h = 2 /\ forall a v, lookup leqb a (c_map h) = Some v -> rec_fine v.
Lemma fine_step h o : all_fine h -> all_fine (hstep h o).
Proof.
  intros (A & B & C & D). destruct o as [a t|a t|a q t]; cbn [hstep].
  - unfold add_fall_down. rewrite A, B. destruct (lookup leqb a (c_map h)) as [v|] eqn:E.
    + split; [exact A|]. split; [exact B|]. split; [exact C|]. cbn. intros b w. destruct (leqb b a) eqn:Eb.
      * apply leqb_ok in Eb. subst b. rewrite (lookup_insert_eq leqb leqb_ok). intros [= <-].
        destruct (D a v E) as (D2 & D3). unfold rec_fine. cbn.
        destruct (h_timeout v <? t - h_record v); cbn; (split; intros X; [|lia]).
        -- destruct (3 <=? 0 + 1) eqn:Y; [reflexivity|]. apply N.leb_gt in Y. lia.
        -- destruct (3 <=? h_fall v + 1) eqn:Y; [reflexivity|]. apply N.leb_gt in Y. lia.
      * rewrite (lookup_insert_ne leqb leqb_ok) by (intros ->; rewrite leqb_refl in Eb; discriminate). apply D.
    + split; [exact A|]. split; [exact B|]. split; [exact C|]. cbn. intros b w. destruct (leqb b a) eqn:Eb.
      * apply leqb_ok in Eb. subst b. rewrite (lookup_insert_eq leqb leqb_ok). intros [= <-]. unfold rec_fine. cbn. split; intros X; lia.
      * rewrite (lookup_insert_ne leqb leqb_ok) by (intros ->; rewrite leqb_refl in Eb; discriminate). apply D.
  - unfold add_rise_up. rewrite A, C. destruct (lookup leqb a (c_map h)) as [v|] eqn:E.
    + split; [exact A|]. split; [exact B|]. split; [exact C|]. cbn. intros b w. destruct (leqb b a) eqn:Eb.
      * apply leqb_ok in Eb. subst b. rewrite (lookup_insert_eq leqb leqb_ok). intros [= <-].
        destruct (D a v E) as (D2 & D3). unfold rec_fine. cbn.
        destruct (h_timeout v <? t - h_record v); cbn; (split; intros X; [lia|split; [|reflexivity]]).
        -- destruct (2 <=? 0 + 1) eqn:Y; [reflexivity|]. apply N.leb_gt in Y. lia.
        -- destruct (2 <=? h_rise v + 1) eqn:Y; [reflexivity|]. apply N.leb_gt in Y. lia.
      * rewrite (lookup_insert_ne leqb leqb_ok) by (intros ->; rewrite leqb_refl in Eb; discriminate). apply D.
    + split; [exact A|]. split; [exact B|]. split; [exact C|]. cbn. intros b w. destruct (leqb b a) eqn:Eb.
      * apply leqb_ok in Eb. subst b. rewrite (lookup_insert_eq leqb leqb_ok). intros [= <-]. unfold rec_fine. cbn. split; intros X; lia.
      * rewrite (lookup_insert_ne leqb leqb_ok) by (intros ->; rewrite leqb_refl in Eb; discriminate). apply D.
  - unfold check_can_request. destruct (lookup leqb a (c_map h)) as [v|] eqn:E.
    + cbn [snd]. destruct (match h_request v with Some ins => q <? t - ins | None => true end); [|exact (conj A (conj B (conj C D)))].
      split; [exact A|]. split; [exact B|]. split; [exact C|]. cbn. intros b w. destruct (leqb b a) eqn:Eb.
      * apply leqb_ok in Eb. subst b. rewrite (lookup_insert_eq leqb leqb_ok). intros [= <-]. exact (D a v E).
      * rewrite (lookup_insert_ne leqb leqb_ok) by (intros ->; rewrite leqb_refl in Eb; discriminate). apply D.
    + split; [exact A|]. split; [exact B|]. split; [exact C|]. cbn. intros b w. destruct (leqb b a) eqn:Eb.
      * apply leqb_ok in Eb. subst b. rewrite (lookup_insert_eq leqb leqb_ok). intros [= <-]. unfold rec_fine. cbn. split; intros X; lia.
      * rewrite (lookup_insert_ne leqb leqb_ok) by (intros ->; rewrite leqb_refl in Eb; discriminate). apply D.
Qed.
Lemma fine_run os : forall h, all_fine h -> all_fine (hrun h os).
Proof. induction os as [|o os IH]; intros h A; [exact A|]. cbn. apply IH, fine_step, A. Qed.
Lemma fine_new : all_fine (hcheck_new 60 3 2).
Proof. split; [reflexivity|]. split; [reflexivity|]. split; [reflexivity|]. cbn. discriminate. Qed.
Lemma memory_two a os : memory 60 a os = 30 * second \/ memory 60 a os = 60 * second.
Proof. induction os as [|o os IH]; [right; reflexivity|]. cbn [memory]. destruct (leqb (hop_addr o) a); [destruct o; auto|exact IH]. Qed.
(* the member of reverse-proxy has the process-wide thresholds *)
Lemma simple_agrees os a now :
  (forall c t l, results a os = (c, t) :: l -> now - t <= 30 * second \/ 60 * second < now - t) ->
  live now (hrun (hcheck_new 60 3 2) os) (new_simple a) = negb (is_fall_down a now (hrun (hcheck_new 60 3 2) os)).
Proof.
  intros H. pose proof (fine_run os _ fine_new) as (_ & _ & _ & D).
  destruct (hrun_inv 60 3 2 os ltac:(lia) ltac:(lia)) as (_ & _ & _ & I). specialize (I a).
  set (h := hrun (hcheck_new 60 3 2) os) in *. unfold live, check_fall_down, is_fall_down. cbn [new_simple s_addr s_timeout s_fall s_rise].
  destruct (lookup leqb a (c_map h)) as [v|] eqn:E; [|reflexivity]. destruct (D a v E) as (D2 & D3).
  destruct I as [(E1 & E2 & E3 & E4 & E5) _]. rewrite E1.
  destruct (results a os) as [|[c t] l].
  - cbn [fresh lead] in *. assert (F : h_failed v = false).
    { destruct (h_failed v); [|reflexivity]. exfalso. apply (failed_in_nil 3 2); [lia|]. apply E5. reflexivity. }
    rewrite E3, E4, F. destruct (60 * second <? now - h_record v), (memory 60 a os <? now - h_record v); reflexivity.
  - rewrite (E2 _ _ _ eq_refl). specialize (H c t l eq_refl).
    destruct (N.ltb_spec (60 * second) (now - t)) as [G|G].
    + destruct (N.ltb_spec (memory 60 a os) (now - t)) as [G2|G2]; [reflexivity|]. exfalso.
      destruct (memory_two a os) as [M|M]; rewrite M in G2; unfold second in *; lia.
    + destruct (N.ltb_spec (memory 60 a os) (now - t)) as [G2|G2];
        [exfalso; destruct (memory_two a os) as [M|M]; rewrite M in G2; unfold second in *; lia|].
      f_equal. destruct (N.leb_spec 3 (h_fall v)); [symmetry; auto|].
      destruct (N.leb_spec 2 (h_rise v)); [symmetry; apply D3; assumption|reflexivity].
Qed.
Lemma simple_choice draw now h to : live now h (new_simple to) = negb (is_fall_down to now h) ->
  get_server_addr draw now h [new_simple to] = Ok (Some to).
Proof.
  intros L. assert (D : (draw mod 100 <=? 100) = true) by (apply N.leb_le, N.lt_le_incl, N.mod_lt; discriminate).
  unfold get_server_addr, calc_sum_weight. cbn [sums s_addr new_simple].
  destruct (is_fall_down to now h); cbn [negb] in L.
  - change (Ok (E := unit) (pick (fun _ => true) [new_simple to] (draw mod 100)) = Ok (Some to)).
    cbn [pick new_simple s_weight s_addr]. rewrite D. reflexivity.
  - change (Ok (E := unit) (pick (live now h) [new_simple to] (draw mod 100)) = Ok (Some to)).
    cbn [pick]. rewrite L. cbn [new_simple s_weight s_addr]. rewrite D. reflexivity.
Qed.

Lemma fall_single a v t T mx mn : add_fall_down a t (HCheck T mx mn [(a, v)]) =
  HCheck T mx mn [(a, let v1 := if h_timeout v <? t - h_record v then clear_status v else v in
     HRec (h_request v1) t (h_timeout v1) (h_fall v1 + 1) 0 (if mx <=? h_fall v1 + 1 then true else h_failed v1))].
Proof. unfold add_fall_down. cbn [c_map lookup]. rewrite leqb_refl. unfold set_map. cbn [c_timeout c_max_fails c_min_rises insert]. rewrite leqb_refl. reflexivity. Qed.

(* ---- a backend that does not answer ---- *)
Lemma silent_first f t : forall addrs h, (forall a, In a addrs -> f a = Silent) ->
  snd (connect_wait f t addrs h) = h /\ forall a, fst (connect_wait f t addrs h) <> Connected a.
Proof.
  induction addrs as [|a l IH]; intros h H; [split; [reflexivity|discriminate]|]. cbn [connect_wait].
  destruct (is_fall_down a t h); [apply IH; intros b X; apply H; right; exact X|].
  rewrite (H a (or_introl eq_refl)). split; [reflexivity|discriminate].
Qed.
