(* Request rate limiting: src/data/limit_req_data.rs and
   src/reverse/limit_req.rs.  Times are nanoseconds since some origin; Instant
   subtraction saturates at zero, like N subtraction.  Counters are unbounded
   (u64 in the code: the difference needs 2^64 requests).  100 * per panics for a period of
   more than 2^64 / 100 seconds: not modelled. *)
From Verif Require Import Base.
Open Scope N_scope.

(* a client address as text *)
Definition ip := list N.
(* limit_req_data.rs:47-50 *)
Record inner := Inner { i_last : N; i_nums : N }.
(* limit_req_data.rs:26-38 *)
Record zone := Zone { z_ips : list (ip * inner); z_limit : N; z_nums : N; z_per : N; z_removed : N }.
(* limit_req_data.rs:41-45; Delay carries the period *)
Inductive verdict := LOk | LRefuse | LDelay (d : N).

(* limit_req_data.rs:60-69 recv_req *)
Definition recv_req (per now : N) (i : inner) : inner :=
  if per <? now - i_last i then Inner now 1 else Inner now (i_nums i + 1).

(* limit_req_data.rs:73-81 *)
Definition zone_new (limit nums per now : N) : zone := Zone [] limit nums per now.

(* limit_req_data.rs:83-108 *)
Definition try_remove_unuse (now : N) (z : zone) : zone :=
  if nlen (z_ips z) <? z_limit z / 10 then z
  else if now - z_removed z <? 100 * z_per z then z
  else Zone (filter (fun kv => negb (50 * z_per z <? now - i_last (snd kv))) (z_ips z))
            (z_limit z) (z_nums z) (z_per z) now.

(* limit_req_data.rs:119 self.nums + burst, both u64: the sum wraps in a release build; a debug
   build panics with the lock held *)
Definition allowed (nums burst : N) : N := (nums + burst) mod 2 ^ 64.

(* limit_req_data.rs:110-128; now1, now2: the two readings of the clock.  The
   first component tells whether the zone was found full. *)
Definition inner_recv (a : ip) (burst now1 now2 : N) (z0 : zone) : (bool * verdict) * zone :=
  let z := try_remove_unuse now1 z0 in
  if z_limit z <=? nlen (z_ips z) then ((true, LRefuse), z)
  else match lookup leqb a (z_ips z) with
       | Some i =>
         let i' := recv_req (z_per z) now2 i in
         let z' := Zone (insert leqb a i' (z_ips z)) (z_limit z) (z_nums z) (z_per z) (z_removed z) in
         ((false, if i_nums i' <=? z_nums z then LOk
                  else if i_nums i' <=? allowed (z_nums z) burst then LDelay (z_per z)
                  else LRefuse), z')
       | None =>
         ((false, LOk),
          Zone (insert leqb a (Inner now2 1) (z_ips z)) (z_limit z) (z_nums z) (z_per z) (z_removed z))
       end.

(* The table of zones, limit_req_data.rs:20-24 *)
Definition zones := list (list N * zone).
(* limit_req_data.rs:130-139: an existing zone is kept as it is *)
Definition cache (key : list N) (limit nums per now : N) (t : zones) : zones :=
  match lookup leqb key t with
  | Some _ => t
  | None => insert leqb key (zone_new limit nums per now) t
  end.
(* limit_req_data.rs:141-149 *)
Definition recv_new_req (key : list N) (a : ip) (burst now1 now2 : N) (t : zones) : (bool * verdict) * zones :=
  match lookup leqb key t with
  | None => ((false, LOk), t)
  | Some z => let '(v, z') := inner_recv a burst now1 now2 z in (v, insert leqb key z' t)
  end.

(* limit_req.rs:68-89 process_request: None lets the request through *)
Inductive gate := Pass | PassAfter (d : N) | Answer (status : N).
(* src/reverse/limit_req.rs:68-89 *)
Definition process_request (client : option ip) (key : list N) (burst now1 now2 : N) (t : zones) : gate * zones :=
  match client with
  | None => (Pass, t)
  | Some a => let '((_, v), t') := recv_new_req key a burst now1 now2 t in
              (match v with LOk => Pass | LRefuse => Answer 404 | LDelay d => PassAfter d end, t')
  end.

(* A history of requests on one zone *)
Record req := Req { q_ip : ip; q_burst : N; q_now1 : N; q_now2 : N }.
(* model only: one request of a history with its answer *)
Record rec := Rec { r_req : req; r_full : bool; r_verdict : verdict }.
(* model only: all requests of a history *)
Fixpoint zrun (z : zone) (rs : list req) : zone * list rec :=
  match rs with
  | [] => (z, [])
  | q :: rs' =>
    let '((full, v), z1) := inner_recv (q_ip q) (q_burst q) (q_now1 q) (q_now2 q) z in
    let '(z2, tr) := zrun z1 rs' in (z2, Rec q full v :: tr)
  end.
