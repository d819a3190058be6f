(* What the rate limiter is supposed to answer, in terms of the history alone. *)
From Verif Require Import Base LimModel.
Open Scope N_scope.

(* The clock never goes back. *)
Fixpoint clock_ok (t : N) (rs : list req) : Prop :=
  match rs with
  | [] => True
  | q :: rs' => t <= q_now1 q /\ q_now1 q <= q_now2 q /\ clock_ok (q_now2 q) rs'
  end.

(* Requests in the current burst: times newest first, a gap longer than `per`
   starts a new count. *)
Fixpoint count (per : N) (ts : list N) : N :=
  match ts with
  | [] => 0
  | t :: ts' => match ts' with
                | [] => 1
                | t' :: _ => if per <? t - t' then 1 else count per ts' + 1
                end
  end.

(* Times of the requests of one address that were counted, newest first. *)
Fixpoint own (a : ip) (tr : list rec) : list N :=
  match tr with
  | [] => []
  | r :: tr' => own a tr' ++ (if r_full r then [] else if leqb (q_ip (r_req r)) a then [q_now2 (r_req r)] else [])
  end.

(* the largest number a setting can hold *)
Definition u64 : N := 18446744073709551615.
Definition judge (n b per c : N) : verdict :=
  if c <=? n then LOk else if c <=? n + b then LDelay per else LRefuse.

(* The middleware in use: requests of all sites, each naming a zone, in order. *)
Record call := Call { c_zone : list N; c_client : option ip; c_burst : N; c_now1 : N; c_now2 : N }.
Fixpoint gates (t : zones) (cs : list call) : zones * list (call * gate) :=
  match cs with
  | [] => (t, [])
  | q :: cs' => let '(g, t1) := process_request (c_client q) (c_zone q) (c_burst q) (c_now1 q) (c_now2 q) t in
                let '(t2, tr) := gates t1 cs' in (t2, (q, g) :: tr)
  end.
(* Who asked on zone k, and when client a asked on it, newest first. *)
Definition askers (k : list N) (tr : list (call * gate)) : list ip :=
  flat_map (fun x => if leqb (c_zone (fst x)) k then match c_client (fst x) with Some a => [a] | None => [] end else []) tr.
Definition times (k : list N) (a : ip) (tr : list (call * gate)) : list N :=
  rev (flat_map (fun x => if leqb (c_zone (fst x)) k
     then match c_client (fst x) with Some b => if leqb b a then [c_now2 (fst x)] else [] | None => [] end else []) tr).
(* The clock of one zone. *)
Definition zone_clock (k : list N) (t0 : N) (cs : list call) : Prop :=
  clock_ok t0 (flat_map (fun q => if leqb (c_zone q) k
    then match c_client q with Some a => [Req a (c_burst q) (c_now1 q) (c_now2 q)] | None => [] end else []) cs).
(* What the client sees. *)
Definition shown (v : verdict) : gate := match v with LOk => Pass | LDelay d => PassAfter d | LRefuse => Answer 404 end.
