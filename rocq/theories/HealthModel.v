(* Passive health records and the choice of a backend: src/check/health.rs,
   src/reverse/upstream.rs.  Times in nanoseconds; one reading of the clock per
   call (the code reads it twice in add_fall_down/add_rise_up). *)
From Verif Require Import Base.
Open Scope N_scope.

(* a socket address, by its name *)
Definition addr := list N.
(* health.rs:29-42 *)
Record hrec := HRec { h_request : option N; h_record : N; h_timeout : N; h_fall : N; h_rise : N; h_failed : bool }.
(* health.rs:64-73 *)
Record hcheck := HCheck { c_timeout : N; c_max_fails : N; c_min_rises : N; c_map : list (addr * hrec) }.
(* one second in nanoseconds *)
Definition second : N := 1000000000.

(* health.rs:45-54 *)
Definition hrec_new (timeout now : N) : hrec := HRec None now (timeout * second) 0 0 false.
(* health.rs:76-83 *)
Definition hcheck_new (timeout max_fails min_rises : N) : hcheck := HCheck timeout max_fails min_rises [].
(* record update *)
Definition set_map (h : hcheck) m := HCheck (c_timeout h) (c_max_fails h) (c_min_rises h) m.

(* health.rs:56-60 clear_status *)
Definition clear_status (v : hrec) : hrec := HRec (h_request v) (h_record v) (h_timeout v) 0 0 false.

(* health.rs:89-111 check_can_request; true: a probe may be sent *)
Definition check_can_request (a : addr) (duration now : N) (h : hcheck) : bool * hcheck :=
  match lookup leqb a (c_map h) with
  | None => (true, set_map h (insert leqb a (HRec (Some now) now (30 * second) 0 0 false) (c_map h)))
  | Some v =>
    let can := match h_request v with Some ins => duration <? now - ins | None => true end in
    (can, if can then set_map h (insert leqb a (HRec (Some now) (h_record v) (h_timeout v) (h_fall v) (h_rise v) (h_failed v)) (c_map h)) else h)
  end.

(* health.rs:114-128 *)
Definition is_fall_down (a : addr) (now : N) (h : hcheck) : bool :=
  match lookup leqb a (c_map h) with
  | None => false
  | Some v => if h_timeout v <? now - h_record v then false else h_failed v
  end.

(* health.rs:131-151 *)
Definition check_fall_down (a : addr) (timeout fall rise now : N) (h : hcheck) : bool :=
  match lookup leqb a (c_map h) with
  | None => false
  | Some v => if timeout <? now - h_record v then false
              else if fall <=? h_fall v then true
              else if rise <=? h_rise v then false
              else h_failed v
  end.

(* health.rs:154-177 *)
Definition add_fall_down (a : addr) (now : N) (h : hcheck) : hcheck :=
  match lookup leqb a (c_map h) with
  | None => let v := hrec_new (c_timeout h) now in
            set_map h (insert leqb a (HRec (h_request v) (h_record v) (h_timeout v) 1 (h_rise v) (h_failed v)) (c_map h))
  | Some v0 =>
    let v := if h_timeout v0 <? now - h_record v0 then clear_status v0 else v0 in
    let fall := h_fall v + 1 in
    set_map h (insert leqb a
      (HRec (h_request v) now (h_timeout v) fall 0 (if c_max_fails h <=? fall then true else h_failed v)) (c_map h))
  end.

(* health.rs:180-203 *)
Definition add_rise_up (a : addr) (now : N) (h : hcheck) : hcheck :=
  match lookup leqb a (c_map h) with
  | None => let v := hrec_new (c_timeout h) now in
            set_map h (insert leqb a (HRec (h_request v) (h_record v) (h_timeout v) (h_fall v) 1 (h_failed v)) (c_map h))
  | Some v0 =>
    let v := if h_timeout v0 <? now - h_record v0 then clear_status v0 else v0 in
    let rise := h_rise v + 1 in
    set_map h (insert leqb a
      (HRec (h_request v) now (h_timeout v) 0 rise (if c_min_rises h <=? rise then false else h_failed v)) (c_map h))
  end.

(* What callers do with the table. *)
Inductive hop :=
| HFail (a : addr) (now : N)
| HRise (a : addr) (now : N)
| HProbe (a : addr) (duration now : N).
(* the backend an operation concerns *)
Definition hop_addr (o : hop) : addr := match o with HFail a _ | HRise a _ | HProbe a _ _ => a end.
(* the reading of the clock *)
Definition hop_time (o : hop) : N := match o with HFail _ t | HRise _ t | HProbe _ _ t => t end.
(* model only: one call of the code *)
Definition hstep (h : hcheck) (o : hop) : hcheck :=
  match o with
  | HFail a t => add_fall_down a t h
  | HRise a t => add_rise_up a t h
  | HProbe a d t => snd (check_can_request a d t h)
  end.
(* model only: all calls of a history *)
Definition hrun (h : hcheck) (os : list hop) : hcheck := fold_left hstep os h.

(* model only: one resolved address, the reading of the clock when it is looked up in the
   table and the one when the attempt to connect has ended *)
Record turn := Turn { tn_addr : addr; tn_look : N; tn_end : N }.
(* health.rs:206-243 connect: tries the resolved addresses in order; `up a`
   tells whether a TCP connection to a succeeds (an oracle: the same for every attempt of
   one call).  Result: the address connected to and, in order, the turns in which an
   address was contacted. *)
Fixpoint connect_at (up : addr -> bool) (l : list turn) (h : hcheck) : option addr * list turn * hcheck :=
  match l with
  | [] => (None, [], h)
  | x :: rest =>
    if is_fall_down (tn_addr x) (tn_look x) h then connect_at up rest h
    else if up (tn_addr x) then (Some (tn_addr x), [x], add_rise_up (tn_addr x) (tn_end x) h)
    else let '(r, tr, h') := connect_at up rest (add_fall_down (tn_addr x) (tn_end x) h) in (r, x :: tr, h')
  end.
(* health.rs:206-243 for callers that take one moment for the whole call *)
Definition connect (up : addr -> bool) (t : N) (addrs : list addr) (h : hcheck) : option addr * hcheck :=
  let '(r, _, h') := connect_at up (map (fun a => Turn a t t) addrs) h in (r, h').

(* ---- reverse/upstream.rs --------------------------------------------------- *)
(* upstream.rs:40-59 (status is skipped) *)
Record server := Server { s_addr : addr; s_weight : N; s_timeout : N; s_fall : N; s_rise : N }.
(* upstream.rs:125-134 new_simple *)
Definition new_simple (a : addr) : server := Server a 100 (60 * second) 3 2.

(* u16 addition: overflow panics in debug builds, wraps in release; None is
   "overflow" here. *)
Definition add16 (a b : N) : option N := if a + b <? 65536 then Some (a + b) else None.

(* upstream.rs:111-121 calc_sum_weight *)
Fixpoint sums (now : N) (h : hcheck) (l : list server) (sum all : N) : option (N * N) :=
  match l with
  | [] => Some (sum, all)
  | s :: l' =>
    match (if is_fall_down (s_addr s) now h then Some sum else add16 sum (s_weight s)) with
    | None => None
    | Some sum' => match add16 all (s_weight s) with None => None | Some all' => sums now h l' sum' all' end
    end
  end.
(* upstream.rs:111-121 *)
Definition calc_sum_weight now h l := sums now h l 0 0.

(* upstream.rs:84-98: the member is not held for down *)
Definition live (now : N) (h : hcheck) (s : server) : bool :=
  negb (check_fall_down (s_addr s) (s_timeout s) (s_fall s) (s_rise s) now h).

(* upstream.rs:84-98: the loop over live members; upstream.rs:99-107: the loop
   over all members (p = fun _ => true).  `random_weight -= weight` happens only
   when random_weight > weight, so it does not underflow. *)
Fixpoint pick (p : server -> bool) (l : list server) (r : N) : option addr :=
  match l with
  | [] => None
  | s :: l' => if p s then (if r <=? s_weight s then Some (s_addr s) else pick p l' (r - s_weight s))
               else pick p l' r
  end.

(* upstream.rs:78-109; `draw` is rng.gen_range(0..n) given as draw mod n;
   gen_range of an empty range panics *)
Definition get_server_addr (draw now : N) (h : hcheck) (l : list server) : res unit (option addr) :=
  match l with
  | [] => Ok None
  | _ =>
    match calc_sum_weight now h l with
    | None => Panic
    | Some (sum, all) =>
      if negb (sum =? 0) then Ok (pick (live now h) l (draw mod sum))
      else if all =? 0 then Panic
      else Ok (pick (fun _ => true) l (draw mod all))
    end
  end.
