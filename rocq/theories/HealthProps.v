(* Passive health checks and load balancing: C20, C21, C22. *)
From Verif Require Import Base HealthModel HealthSpec HealthProofs.
Open Scope N_scope.

(* C20: down exactly when the history says so.  The process-wide instance has
   timeout 60 s, max 3, min 2 (health.rs:25). *)
Theorem C20_health : forall T max min os a now, 2 <= max -> 1 <= min ->
  is_fall_down a now (hrun (hcheck_new T max min) os) = true <->
  down max min (memory T a os) now (results a os).
Proof. exact health_spec. Qed.
(* In particular: results of other addresses do not matter. *)
Theorem C20_isolation : forall T max min os os' a now, 2 <= max -> 1 <= min ->
  filter (fun o => leqb (hop_addr o) a) os = filter (fun o => leqb (hop_addr o) a) os' ->
  is_fall_down a now (hrun (hcheck_new T max min) os) = is_fall_down a now (hrun (hcheck_new T max min) os').
Proof.
  intros T max min os os' a now Hmax Hmin E.
  assert (R : forall l, results a l = results a (filter (fun o => leqb (hop_addr o) a) l)).
  { induction l as [|o l IH]; [reflexivity|]. cbn [results filter].
    destruct (leqb (hop_addr o) a) eqn:Eo; cbn [results]; rewrite ?Eo, IH, ?app_nil_r; reflexivity. }
  assert (M : forall l, memory T a l = memory T a (filter (fun o => leqb (hop_addr o) a) l)).
  { induction l as [|o l IH]; [reflexivity|]. cbn [memory filter].
    destruct (leqb (hop_addr o) a) eqn:Eo; cbn [memory]; rewrite ?Eo; [reflexivity|exact IH]. }
  apply eq_true_iff_eq. rewrite !health_spec by assumption. rewrite (R os), (R os'), (M os), (M os'), E. reflexivity.
Qed.
Example C20_demo :
  let s := second in
  let os := [HFail [1] 0; HFail [1] s; HRise [2] s; HFail [1] (2 * s)] in
  is_fall_down [1] (3 * s) (hrun (hcheck_new 60 3 2) os) = true /\
  is_fall_down [1] (63 * s) (hrun (hcheck_new 60 3 2) os) = false /\
  is_fall_down [1] (5 * s) (hrun (hcheck_new 60 3 2) (os ++ [HRise [1] (4 * s)])) = true /\
  is_fall_down [1] (5 * s) (hrun (hcheck_new 60 3 2) (os ++ [HRise [1] (4 * s); HRise [1] (5 * s)])) = false /\
  is_fall_down [1] (5 * s) (hrun (hcheck_new 60 3 2) (os ++ [HRise [1] (4 * s); HFail [1] (4 * s); HRise [1] (5 * s)])) = true.
Proof. vm_compute. repeat split. Qed.
(* With max = 1 the first failure of an unknown address does not mark it. *)
Theorem C20_max_one_refuted : forall T min a t now, 1 <= min -> now - t <= T * second ->
  is_fall_down a now (hrun (hcheck_new T 1 min) [HFail a t]) = false /\
  down 1 min (memory T a [HFail a t]) now (results a [HFail a t]).
Proof.
  intros T min a t now Hm Ht. split.
  - unfold hrun. cbn [fold_left hstep]. unfold add_fall_down, is_fall_down, hcheck_new, set_map. cbn [c_map c_timeout lookup insert has].
    rewrite leqb_refl. cbn [h_failed hrec_new]. destruct (_ <? _); reflexivity.
  - cbn [memory results hop_addr app]. rewrite leqb_refl. exists [], [(true, t)], []. split; [reflexivity|]. split; [reflexivity|].
    split; [repeat constructor|]. split; [cbn; lia|]. apply good_run_nil. lia.
Qed.

(* C21, unconditional part: whatever is returned is a member. *)
Theorem C21_member : forall draw now h l a,
  get_server_addr draw now h l = Ok (Some a) -> exists s, In s l /\ s_addr s = a.
Proof. exact choice_member. Qed.
(* C21, partial: if the group's own thresholds and the process-wide ones agree
   on which members are up, a live member is always chosen. *)
Theorem C21_live_partial : forall draw now h l, total l < 65536 ->
  (exists s, In s l /\ live now h s = true /\ s_weight s <> 0) ->
  (forall s, In s l -> live now h s = negb (is_fall_down (s_addr s) now h)) ->
  exists s, In s l /\ live now h s = true /\ get_server_addr draw now h l = Ok (Some (s_addr s)).
Proof. exact choice_live. Qed.
Example C21_live_demo :
  let h := hrun (hcheck_new 60 3 2) [HFail [1] 0; HFail [1] 0; HFail [1] 0] in
  let l := [new_simple [1]; new_simple [2]] in
  total l < 65536 /\ (forall s, In s l -> live 1 h s = negb (is_fall_down (s_addr s) 1 h)) /\
  live 1 h (new_simple [2]) = true /\ live 1 h (new_simple [1]) = false /\
  get_server_addr 77 1 h l = Ok (Some [2]).
Proof.
  cbn zeta. split; [vm_compute; reflexivity|]. split; [intros s [<-|[<-|[]]]; vm_compute; reflexivity|].
  vm_compute. repeat split.
Qed.
(* C21, when nobody is chosen.  The draw is among the weights of the members that are up
   by the process-wide thresholds, the choice among those that are up by their own: nobody
   is chosen exactly when none of these is left, or the draw is beyond their weights. *)
Lemma pick_none_iff p l : forall r, pick p l r = None <-> filter p l = [] \/ total (filter p l) < r.
Proof.
  induction l as [|s l IH]; intro r; cbn [pick filter]; [split; auto|]. destruct (p s) eqn:E; [|apply IH].
  cbn [total fold_right]. fold (total (filter p l)). destruct (r <=? s_weight s) eqn:R.
  - split; [discriminate|]. intros [H|H]; [discriminate H|lia].
  - rewrite IH. split; intros [H|H]; try discriminate H.
    + right. rewrite H. cbn. lia.
    + right. lia.
    + right. lia.
Qed.
Theorem C21_nobody : forall draw now h l, l <> [] -> total l < 65536 ->
  let up := filter (fun s => negb (is_fall_down (s_addr s) now h)) l in total up <> 0 ->
  (get_server_addr draw now h l = Ok None <->
   filter (live now h) l = [] \/ total (filter (live now h) l) < draw mod total up).
Proof.
  intros draw now h l Hl Ht up Hu. rewrite choice_spec by assumption. change (filter (good now h) l) with up.
  replace (total up =? 0) with false by lia. cbn [negb]. rewrite <- pick_none_iff. split; [congruence|intros ->; reflexivity].
Qed.
(* C21 in full is false of the code.  When the members that are up by their own
   thresholds weigh less by two or more than those that are up by the process-wide ones,
   there are draws for which no member is chosen, whoever is up. *)
Theorem C21_live_refuted : forall now h l, l <> [] -> total l < 65536 ->
  total (filter (live now h) l) + 1 < total (filter (fun s => negb (is_fall_down (s_addr s) now h)) l) ->
  exists draw, get_server_addr draw now h l = Ok None.
Proof.
  intros now h l Hl Ht H. exists (total (filter (live now h) l) + 1). apply C21_nobody; [assumption|assumption|lia|].
  right. rewrite N.mod_small by lia. lia.
Qed.
(* Two failures take member 1 out under the default thresholds of a configured group (2
   failures) but not under the process-wide ones (3); member 2 is up. *)
Example C21_live_refuted_case :
  let l := [Server [1] 100 (30 * second) 2 2; Server [2] 100 (30 * second) 2 2] in
  let h := hrun (hcheck_new 60 3 2) [HFail [1] 0; HFail [1] 1] in
  total l < 65536 /\ live 2 h (Server [2] 100 (30 * second) 2 2) = true /\
  total (filter (live 2 h) l) + 1 < total (filter (fun s => negb (is_fall_down (s_addr s) 2 h)) l) /\
  get_server_addr 150 2 h l = Ok None.
Proof. cbn zeta. vm_compute. repeat split. Qed.
(* A non-empty group of total weight zero crashes the request. *)
Theorem C21_zero_weight_panics : forall draw now h l, l <> [] -> total l = 0 -> get_server_addr draw now h l = Panic.
Proof.
  intros draw now h l Hl Ht. rewrite choice_spec by (try assumption; lia).
  pose proof (total_filter_le (good now h) l) as H. replace (total (filter (good now h) l) =? 0) with true by lia.
  cbn [negb]. rewrite Ht. reflexivity.
Qed.

(* C22: a member's share of the draws differs from its weight by at most one;
   it is exact for members that are neither first nor last. *)
Theorem C22_within_one_partial : forall l1 s l2,
  (forall x, In x l1 -> s_addr x <> s_addr s) -> (forall x, In x l2 -> s_addr x <> s_addr s) ->
  let n := draws (fun r => chooses (s_addr s) (pick (fun _ => true) (l1 ++ s :: l2) r)) (total (l1 ++ s :: l2)) in
  n <= s_weight s + 1 /\ s_weight s <= n + 1 /\ (l1 <> [] -> total l2 <> 0 -> n = s_weight s).
Proof.
  intros l1 s l2 H1 H2 n. destruct (share_spec l1 s l2 H1 H2) as (A & B & C & _).
  split; [exact A|]. split; [exact B|exact C].
Qed.
(* The exact statement is false: with anything after it, the first member
   always gets one draw too many, so a first member of weight zero is chosen. *)
Theorem C22_weights_refuted : forall s l2,
  (forall x, In x l2 -> s_addr x <> s_addr s) -> total l2 <> 0 ->
  draws (fun r => chooses (s_addr s) (pick (fun _ => true) (s :: l2) r)) (total (s :: l2)) = s_weight s + 1.
Proof.
  intros s l2 H1 H2. destruct (share_spec [] s l2) as (_ & _ & _ & A & _); [intros x []|exact H1|].
  exact (A eq_refl H2).
Qed.
Theorem C22_zero_weight_refuted : forall now h,
  is_fall_down [1] now h = false -> is_fall_down [2] now h = false ->
  check_fall_down [1] (30 * second) 2 2 now h = false ->
  get_server_addr 0 now h [Server [1] 0 (30 * second) 2 2; Server [2] 5 (30 * second) 2 2] = Ok (Some [1]).
Proof.
  intros now h H1 H2 H3. unfold get_server_addr, calc_sum_weight. cbn [sums s_addr s_weight].
  rewrite H1, H2. cbn. unfold live. cbn [s_addr s_timeout s_fall s_rise]. rewrite H3. reflexivity.
Qed.
(* The loop over the live members is the loop over all of them, the others
   removed: the counts above hold for the live part of a group. *)
Theorem C22_live_part : forall p l r, pick p l r = pick (fun _ => true) (filter p l) r.
Proof. exact pick_filter. Qed.
Example C22_demo :
  let l := [Server [1] 2 0 1 1; Server [2] 3 0 1 1; Server [3] 4 0 1 1] in
  map (fun a => draws (fun r => chooses a (pick (fun _ => true) l r)) (total l)) [[1]; [2]; [3]] = [3; 3; 3].
Proof. vm_compute. reflexivity. Qed.

(* The shares of the whole choice: of the draws below the weight of the candidates, the
   number that choose a member is its weight, give or take one; exactly its weight if it is
   neither the first candidate nor followed by nothing of weight; one more if it is first. *)
Theorem C22_shares_partial : forall now h l l1 s l2, total l < 65536 ->
  (forall x, In x l -> live now h x = negb (is_fall_down (s_addr x) now h)) ->
  candidates (live now h) l = l1 ++ s :: l2 -> total (l1 ++ s :: l2) <> 0 ->
  (forall x, In x (l1 ++ l2) -> s_addr x <> s_addr s) ->
  let n := draws (fun d => gives (s_addr s) (get_server_addr d now h l)) (total (l1 ++ s :: l2)) in
  n <= s_weight s + 1 /\ s_weight s <= n + 1 /\ (l1 <> [] -> total l2 <> 0 -> n = s_weight s) /\
  (l1 = [] -> total l2 <> 0 -> n = s_weight s + 1) /\ (l1 <> [] -> s_weight s <> 0 -> total l2 = 0 -> n + 1 = s_weight s).
Proof.
  intros now h l l1 s l2 Ht Ha Hc Hz Hd n.
  assert (E : n = share l1 s l2).
  { unfold n, share. apply draws_ext. intros r Hr. unfold gives, chooses.
    assert (F : filter (fun x => negb (is_fall_down (s_addr x) now h)) l = filter (live now h) l).
    { apply filter_ext_in. intros x Hx. symmetry. apply Ha. exact Hx. }
    destruct (sums_some now h l 0 0) as (q & Eq); [lia|lia|]. pose proof (sums_spec now h l 0 0 q Eq) as Es. rewrite F in Es.
    rewrite !N.add_0_l in Es. unfold get_server_addr, calc_sum_weight. rewrite Eq, Es. unfold candidates in Hc.
    destruct l as [|x l]; [cbn in Hc; destruct l1; discriminate Hc|].
    destruct (N.eqb_spec (total (filter (live now h) (x :: l))) 0) as [Z|Z]; cbn [negb].
    - rewrite Hc in *. destruct (N.eqb_spec (total (l1 ++ s :: l2)) 0); [contradiction|]. rewrite (N.mod_small r) by exact Hr. reflexivity.
    - rewrite pick_filter, Hc. rewrite (N.mod_small r) by exact Hr. reflexivity. }
  rewrite E. apply share_spec; intros x Hx; apply Hd; apply in_or_app; auto.
Qed.
Example C22_shares_demo :
  let h := hrun (hcheck_new 60 3 2) [HFail [1] 0; HFail [1] 0; HFail [1] 0] in
  let m a w := Server a w (60 * second) 3 2 in
  let l := [m [1] 7; m [2] 2; m [3] 3; m [4] 4] in
  candidates (live 1 h) l = [m [2] 2] ++ m [3] 3 :: [m [4] 4] /\
  (forall x, In x l -> live 1 h x = negb (is_fall_down (s_addr x) 1 h)) /\
  map (fun a => draws (fun d => gives a (get_server_addr d 1 h l)) 9) [[1]; [2]; [3]; [4]] = [0; 3; 3; 3].
Proof.
  cbn zeta. split; [vm_compute; reflexivity|]. split; [intros x Hx; repeat (destruct Hx as [<-|Hx]; [vm_compute; reflexivity|]); destruct Hx|].
  vm_compute. reflexivity.
Qed.

Print Assumptions C20_health.
Print Assumptions C20_isolation.
Print Assumptions C20_max_one_refuted.
Print Assumptions C21_member.
Print Assumptions C21_live_partial.
Print Assumptions C21_live_refuted.
Print Assumptions C21_nobody.
Print Assumptions C21_zero_weight_panics.
Print Assumptions C22_within_one_partial.
Print Assumptions C22_weights_refuted.
Print Assumptions C22_zero_weight_refuted.
Print Assumptions C22_live_part.
Print Assumptions C22_shares_partial.

(* C53: connecting goes to a reachable address that is not marked failed when its turn
   comes, fails only if there is none, contacts no address while it is marked failed, and
   records exactly the outcome of each contact.  A turn is a resolved address with the
   moments at which it is looked up and at which the attempt ends; contacted: the turns in
   which an address was contacted, in order. *)
Theorem C53_connect : forall up l h result contacted h',
  connect_at up l h = (result, contacted, h') ->
  (forall a, result = Some a -> up a = true /\
     exists before x, contacted = before ++ [x] /\ tn_addr x = a /\ is_fall_down a (tn_look x) h = false /\
       Forall (fun y => up (tn_addr y) = false) before) /\
  (result = None -> Forall (fun y => up (tn_addr y) = false) contacted /\
     forall x, In x l -> up (tn_addr x) = true -> is_fall_down (tn_addr x) (tn_look x) h = true) /\
  (forall x, In x contacted -> In x l) /\
  let outcome x := if up (tn_addr x) then HRise (tn_addr x) (tn_end x) else HFail (tn_addr x) (tn_end x) in
  h' = hrun h (map outcome contacted) /\
  (forall before x after, contacted = before ++ x :: after ->
     is_fall_down (tn_addr x) (tn_look x) (hrun h (map outcome before)) = false).
Proof.
  intros up l h r tr h' H. destruct (connect_walk up l h r tr h' H) as (A & B & C & D & E).
  split; [exact B|]. split; [exact C|]. split; [exact D|]. split; [exact A|exact E].
Qed.
(* the third address is reached: the first is marked failed, the second does not answer *)
Example C53_demo :
  let h := hrun (hcheck_new 60 3 2) [HFail [1] 0; HFail [1] 0; HFail [1] 0] in
  fst (connect_at (fun a => negb (leqb a [2])) [Turn [1] 1 1; Turn [2] 1 4; Turn [3] 4 5; Turn [4] 5 6] h) =
  (Some [3], [Turn [2] 1 4; Turn [3] 4 5]).
Proof. vm_compute. reflexivity. Qed.
Print Assumptions C53_connect.
