(* Health of a backend and fair choice, in terms of the history of results. *)
From Verif Require Import Base HealthModel.
Open Scope N_scope.

(* Results of one address, newest first: (failed?, time). *)
Definition result := (bool * N)%type.
Fixpoint results (a : addr) (os : list hop) : list result :=
  match os with
  | [] => []
  | o :: os' => results a os' ++
      (if leqb (hop_addr o) a then match o with HFail _ t => [(true, t)] | HRise _ t => [(false, t)] | HProbe _ _ _ => [] end else [])
  end.

(* The time after which a record is forgotten: the configured one, or thirty
   seconds if the address was probed before it had any result. *)
Fixpoint memory (timeout : N) (a : addr) (os : list hop) : N :=
  match os with
  | [] => timeout * second
  | o :: os' => if leqb (hop_addr o) a
                then match o with HProbe _ _ _ => 30 * second | _ => timeout * second end
                else memory timeout a os'
  end.

(* No two neighbouring results, and not now and the newest, are further apart than m. *)
Fixpoint nogap (m now : N) (l : list result) : Prop :=
  match l with
  | [] => True
  | (_, t) :: l' => now - t <= m /\ nogap m t l'
  end.

Definition all_failed (l : list result) : Prop := Forall (fun r => fst r = true) l.
Definition all_good (l : list result) : Prop := Forall (fun r => fst r = false) l.

(* n successes in a row somewhere in l *)
Definition good_run (n : N) (l : list result) : Prop :=
  exists x y z, l = x ++ y ++ z /\ nlen y = n /\ all_good y.

(* Down: some max failures in a row, and since then neither a pause longer than
   m nor min successes in a row. *)
Definition down (max min m now : N) (hist : list result) : Prop :=
  exists newer run older, hist = newer ++ run ++ older /\
    nlen run = max /\ all_failed run /\ nogap m now (newer ++ run) /\ ~ good_run min newer.

(* How many draws of 0..n-1 satisfy f. *)
Definition draws (f : N -> bool) (n : N) : N :=
  nlen (filter f (map N.of_nat (seq 0 (N.to_nat n)))).

Definition total (l : list server) : N := fold_right (fun s t => s_weight s + t) 0 l.
Definition chooses (a : addr) (r : option addr) : bool :=
  match r with Some b => leqb a b | None => false end.

(* Whether a choice of a backend, which may crash, gave this address. *)
Definition gives (a : addr) (r : res unit (option addr)) : bool :=
  match r with Ok (Some b) => leqb a b | _ => false end.
(* Those among which a choice is made: the members that are up, unless they have no weight. *)
Definition candidates (up : server -> bool) (l : list server) : list server :=
  if total (filter up l) =? 0 then l else filter up l.
