(* Request rate limiting: C17, C18, C19 and C52. *)
From Verif Require Import Base LimModel LimSpec LimProofs.
Open Scope N_scope.

(* C17: every verdict is the one given by the client's own counted requests,
   unless the zone is full. *)
Theorem C17_verdict : forall limit nums per t0 rs z tr,
  1 <= nums -> clock_ok t0 rs -> zrun (zone_new limit nums per t0) rs = (z, tr) ->
  forall a r b, tr = a ++ r :: b -> nums + q_burst (r_req r) <= u64 ->
  r_verdict r = if r_full r then LRefuse
    else judge nums (q_burst (r_req r)) per
           (count per (q_now2 (r_req r) :: own (q_ip (r_req r)) a)).
Proof. exact zone_spec. Qed.

(* "Full" means at least `limit` different addresses sent requests before. *)
Theorem C17_full_needs_addresses : forall limit nums per t0 rs z tr,
  zrun (zone_new limit nums per t0) rs = (z, tr) ->
  forall a r b, tr = a ++ r :: b -> r_full r = true ->
  exists l, NoDup l /\ limit <= nlen l /\ forall x, In x l -> exists r', In r' a /\ q_ip (r_req r') = x.
Proof. exact zone_full. Qed.

(* Zones do not influence each other. *)
Theorem C17_zones : forall k a burst n1 n2 t,
  (forall k', k' <> k -> lookup leqb k' (snd (recv_new_req k a burst n1 n2 t)) = lookup leqb k' t) /\
  (forall z, lookup leqb k t = Some z ->
     fst (recv_new_req k a burst n1 n2 t) = fst (inner_recv a burst n1 n2 z) /\
     lookup leqb k (snd (recv_new_req k a burst n1 n2 t)) = Some (snd (inner_recv a burst n1 n2 z))).
Proof.
  intros k a burst n1 n2 t. split.
  - intros k'. apply zones_independent.
  - intros z. apply zones_same.
Qed.

(* Ten addresses' worth of room, 2 requests per 1000 and burst 1: Ok, Ok, delay, refuse,
   another client is not affected, and a pause restarts the count. *)
Definition lim_demo : list req :=
  [Req [1] 1 0 0; Req [1] 1 10 10; Req [1] 1 20 20; Req [2] 1 25 25; Req [1] 1 30 30; Req [1] 1 2000 2001].
Example C17_demo : clock_ok 0 lim_demo /\
  map r_verdict (snd (zrun (zone_new 10 2 1000 0) lim_demo)) = [LOk; LOk; LDelay 1000; LOk; LRefuse; LOk].
Proof. split; [cbn; lia|vm_compute; reflexivity]. Qed.

(* With n = 0 the rule of C17 fails: the first request of an address is always
   let through. *)
Theorem C17_zero_refuted : forall limit per t0 a b t1 t2, 0 < limit ->
  exists r, snd (zrun (zone_new limit 0 per t0) [Req a b t1 t2]) = [r] /\ r_verdict r = LOk /\
  judge 0 b per (count per [t2]) <> LOk.
Proof.
  intros limit per t0 a b t1 t2 H. exists (Rec (Req a b t1 t2) false LOk). split; [|split; [reflexivity|unfold judge; cbn [count]; destruct (1 <=? 0 + b); discriminate]].
  cbn [zrun]. unfold inner_recv. cbn [q_ip q_burst q_now1 q_now2].
  assert (Z : z_ips (try_remove_unuse t1 (zone_new limit 0 per t0)) = [] /\ z_limit (try_remove_unuse t1 (zone_new limit 0 per t0)) = limit).
  { unfold try_remove_unuse, zone_new. cbn [z_ips z_limit z_per z_removed]. destruct (_ <? _); [split; reflexivity|]. destruct (_ <? _); split; reflexivity. }
  destruct Z as (Z1 & Z2). rewrite Z1, Z2. cbn [lookup]. change (nlen []) with 0. replace (limit <=? 0) with false by lia. reflexivity.
Qed.

(* With a burst so large that it and the rate exceed 64 bits, a value the configuration
   accepts, nobody is delayed: whoever asks more than nums times is refused. *)
Theorem C17_large_burst_refuted : forall limit nums per t0 rs z tr,
  1 <= nums -> clock_ok t0 rs -> zrun (zone_new limit nums per t0) rs = (z, tr) ->
  forall a r b, tr = a ++ r :: b -> nums <= u64 -> q_burst (r_req r) <= u64 -> u64 < nums + q_burst (r_req r) ->
  r_full r = false ->
  let c := count per (q_now2 (r_req r) :: own (q_ip (r_req r)) a) in
  (c <= nums -> r_verdict r = LOk) /\
  (nums < c -> c <= u64 -> r_verdict r = LRefuse /\ judge nums (q_burst (r_req r)) per c = LDelay per).
Proof. exact large_burst. Qed.
Example C17_large_burst_witness :
  let rs := map (fun n => Req [1] u64 n n) [0; 10; 20] in
  clock_ok 0 rs /\ map r_verdict (snd (zrun (zone_new 10 2 1000 0) rs)) = [LOk; LOk; LRefuse].
Proof. cbv zeta. split; [cbn; lia|vm_compute; reflexivity]. Qed.

(* C18 is false of the code: a client that sends one request every half period
   in a zone allowing two per period (exactly the configured rate) is refused
   for ever from its fourth request on, however long it goes on. *)
Theorem C18_recovers_refuted : exists per nums b gap limit,
  nums * gap = per /\ 1 <= nums /\
  forall k i, (4 <= i < k)%nat ->
  exists r, nth_error (snd (zrun (zone_new limit nums per 0) (steady [1] b 0 gap k))) i = Some r /\
            r_verdict r = LRefuse.
Proof.
  exists 1000, 2, 1, 500, 10. split; [reflexivity|]. split; [lia|]. intros k i Hi.
  destruct (nth_error (snd (zrun (zone_new 10 2 1000 0) (steady [1] 1 0 500 k))) i) as [r|] eqn:E.
  - exists r. split; [reflexivity|].
    apply (steady_refused 1000 2 10 [1] 1 500 0 k) with (i := i); [lia|lia|exact E|lia|lia].
  - exfalso. apply nth_error_None in E. rewrite steady_length in E. lia.
Qed.
(* ... and in general: any steady client whose gap is at most the period. *)
Theorem C18_steady_refused : forall per nums limit a b gap t k,
  gap <= per -> 1 < limit -> forall i r,
  nth_error (snd (zrun (zone_new limit nums per t) (steady a b t gap k))) i = Some r ->
  nums + b <= N.of_nat i -> 1 <= N.of_nat i -> r_verdict r = LRefuse.
Proof. exact steady_refused. Qed.
(* What does hold: one pause longer than the period restores service, if the zone
   is not full. *)
Theorem C18_recovers_after_pause_partial : forall limit nums per t0 rs z tr,
  1 <= nums -> clock_ok t0 rs -> zrun (zone_new limit nums per t0) rs = (z, tr) ->
  forall a r b t ts, tr = a ++ r :: b -> r_full r = false ->
  own (q_ip (r_req r)) a = t :: ts -> per < q_now2 (r_req r) - t -> r_verdict r = LOk.
Proof.
  intros limit nums per t0 rs z tr Hn Hc H a r b t ts E Hf Ho Hp.
  rewrite (zone_spec' _ _ _ _ _ _ _ Hn Hc H a r b E), Hf, Ho. cbn [count].
  replace (per <? q_now2 (r_req r) - t) with true by lia. unfold judge'.
  replace (1 <=? nums) with true by lia. reflexivity.
Qed.

(* C19 is false of the code: after as many different clients as the zone holds
   sent one request each, every request of every client, the tracked ones
   included, is refused during the next fifty periods. *)
Theorem C19_lockout_refuted : forall limit nums per b t l rs,
  NoDup l -> nlen l = limit -> Forall (fun q => q_now1 q <= t + 50 * per) rs ->
  Forall (fun r => r_verdict r = LRefuse)
    (snd (zrun (fst (zrun (zone_new limit nums per t) (at_once b t l))) rs)).
Proof. exact full_lockout. Qed.
Example C19_witness :
  map r_verdict (snd (zrun (zone_new 2 5 1000 0) [Req [1] 0 0 0; Req [2] 0 1 1; Req [1] 0 2 2])) = [LOk; LOk; LRefuse]
  /\ judge 5 0 1000 (count 1000 [2; 0]) = LOk.
Proof. split; vm_compute; reflexivity. Qed.
(* What does hold: a zone that has seen fewer addresses than its limit never
   answers "full", so every client is judged by its own count. *)
Theorem C19_below_limit_partial : forall limit nums per t0 rs z tr,
  1 <= nums -> clock_ok t0 rs -> zrun (zone_new limit nums per t0) rs = (z, tr) ->
  forall a r b, tr = a ++ r :: b -> nums + q_burst (r_req r) <= u64 ->
  (forall l, NoDup l -> (forall x, In x l -> exists r', In r' a /\ q_ip (r_req r') = x) -> nlen l < limit) ->
  r_verdict r = judge nums (q_burst (r_req r)) per
                  (count per (q_now2 (r_req r) :: own (q_ip (r_req r)) a)).
Proof.
  intros limit nums per t0 rs z tr Hn Hc H a r b E Hb Hl.
  rewrite (zone_spec _ _ _ _ _ _ _ Hn Hc H a r b E Hb). destruct (r_full r) eqn:Ef; [|reflexivity].
  destruct (zone_full _ _ _ _ _ _ _ H a r b E Ef) as (l & A & B & C). specialize (Hl l A C). lia.
Qed.

(* C52 is false of the code: loading a configuration whose zone has new limits
   leaves the old limits in force. *)
Theorem C52_reload_limits_refuted : forall key limit nums per now limit' nums' per' now' t,
  lookup leqb key t = None ->
  exists z, lookup leqb key (cache key limit' nums' per' now' (cache key limit nums per now t)) = Some z /\
            z_limit z = limit /\ z_nums z = nums /\ z_per z = per.
Proof.
  intros key limit nums per now limit' nums' per' now' t H. unfold cache at 2. rewrite H.
  unfold cache. rewrite (lookup_insert_eq leqb leqb_ok). exists (zone_new limit nums per now).
  rewrite (lookup_insert_eq leqb leqb_ok). repeat split.
Qed.
(* What does hold: a zone name not seen before gets its limits, the others stay. *)
Theorem C52_new_zone_partial : forall key limit nums per now t k,
  lookup leqb k (cache key limit nums per now t) =
  if leqb k key then match lookup leqb key t with Some z => Some z | None => Some (zone_new limit nums per now) end
  else lookup leqb k t.
Proof.
  intros key limit nums per now t k. unfold cache. destruct (leqb k key) eqn:E.
  - apply leqb_ok in E as ->. destruct (lookup leqb key t) eqn:El; [exact El|]. apply (lookup_insert_eq leqb leqb_ok).
  - destruct (lookup leqb key t); [reflexivity|]. apply (lookup_insert_ne leqb leqb_ok).
    intros ->. rewrite leqb_refl in E. discriminate.
Qed.

(* The middleware: a request without the client address is never limited. *)
Theorem C17_gate : forall client key burst now1 now2 t,
  fst (process_request client key burst now1 now2 t) =
  match client with
  | None => Pass
  | Some a => match snd (fst (recv_new_req key a burst now1 now2 t)) with
              | LOk => Pass | LDelay d => PassAfter d | LRefuse => Answer 404 end
  end.
Proof.
  intros [a|] key burst now1 now2 t; [|reflexivity]. unfold process_request.
  destruct (recv_new_req key a burst now1 now2 t) as [[f v] t']. destruct v; reflexivity.
Qed.

(* A site that names a zone nobody defined is not limited. *)
Theorem C17_unknown_zone : forall client key burst now1 now2 t, lookup leqb key t = None ->
  process_request client key burst now1 now2 t = (Pass, t).
Proof. intros [a|] key burst now1 now2 t H; [|reflexivity]. unfold process_request, recv_new_req. rewrite H. reflexivity. Qed.
(* The middleware as a whole: whatever the other clients, zones and sites do, as
   long as fewer addresses than the limit have asked on its zone, a request is
   answered by the times of its own client's requests on that zone alone. *)
Theorem C17_middleware : forall k limit nums per t0 t cs t' tr a q g b x,
  1 <= nums -> lookup leqb k t = Some (zone_new limit nums per t0) -> zone_clock k t0 cs ->
  gates t cs = (t', tr) -> tr = a ++ (q, g) :: b -> c_zone q = k -> c_client q = Some x -> nums + c_burst q <= u64 ->
  (forall l, NoDup l -> incl l (askers k a) -> nlen l < limit) ->
  g = shown (judge nums (c_burst q) per (count per (c_now2 q :: times k x a))).
Proof. exact gates_spec. Qed.
Example C17_middleware_demo :
  let cs := [Call [1] (Some [7]) 0 0 0; Call [2] (Some [7]) 0 1 1; Call [1] (Some [8]) 0 2 2; Call [1] (Some [7]) 0 3 3; Call [1] None 0 4 4] in
  let t := [([1], zone_new 10 1 1000 0); ([2], zone_new 10 1 1000 0)] in
  zone_clock [1] 0 cs /\ map snd (snd (gates t cs)) = [Pass; Pass; Pass; Answer 404; Pass] /\
  times [1] [7] (firstn 3 (snd (gates t cs))) = [0].
Proof. cbv zeta. split; [vm_compute; repeat split; discriminate|]. split; vm_compute; reflexivity. Qed.
Print Assumptions C17_unknown_zone.
Print Assumptions C17_middleware.
Print Assumptions C17_verdict.
Print Assumptions C17_full_needs_addresses.
Print Assumptions C17_zones.
Print Assumptions C17_gate.
Print Assumptions C17_zero_refuted.
Print Assumptions C17_large_burst_refuted.
Print Assumptions C18_recovers_refuted.
Print Assumptions C18_steady_refused.
Example C18_cases :
  let tr := snd (zrun (zone_new 10 2 1000 0) lim_demo) in
  exists a r, tr = a ++ [r] /\ r_full r = false /\ own (q_ip (r_req r)) a = [30; 20; 10; 0] /\ 1000 < q_now2 (r_req r) - 30 /\ r_verdict r = LOk /\
  map r_verdict (snd (zrun (zone_new 10 2 1000 0) (steady [1] 1 0 500 6))) = [LOk; LOk; LDelay 1000; LRefuse; LRefuse; LRefuse].
Proof. exists (firstn 5 (snd (zrun (zone_new 10 2 1000 0) lim_demo))). eexists. split; [vm_compute; reflexivity|]. repeat split; vm_compute; reflexivity. Qed.
Print Assumptions C18_recovers_after_pause_partial.
Print Assumptions C19_lockout_refuted.
Print Assumptions C19_below_limit_partial.
Example C52_case :
  option_map z_nums (lookup leqb [97] (cache [97] 10 100 1000 7 (cache [97] 10 2 1000 0 []))) = Some 2 /\
  option_map z_nums (lookup leqb [98] (cache [98] 10 100 1000 7 (cache [97] 10 2 1000 0 []))) = Some 100.
Proof. split; vm_compute; reflexivity. Qed.
Print Assumptions C52_reload_limits_refuted.
Print Assumptions C52_new_zone_partial.
