(* The accept loop with accept errors: src/wmcore.rs:146-175 and 260-357, over CoreModel,
   where every accept succeeds. *)
From Coq Require Import String.
From Verif Require Import Base Text TextOps AddrModel ProtModel IdModel CoreModel.
Open Scope N_scope.

(* wmcore.rs:262-292 the ports with a branch `Some(..) = tcp_listen_work(..)` each; the
   ports of the http and the stream section share one branch per section, with a pattern
   that always matches (293, 331) *)
Definition own_branch (k : lkind) : bool := match k with LWeb | LStream => false | _ => true end.

(* one select! of the loop: ac_off holds the branches that are switched off until the next
   round, because their future ended with a value the pattern does not match *)
Record ac := Ac { ac_core : core; ac_off : list lkind }.
(* wmcore.rs:258-260: before the first round *)
Definition ac0 : ac := Ac core0 [].
(* is the branch of this port off *)
Definition off (k : lkind) (s : ac) : bool := existsb (lkind_eqb k) (ac_off s).

(* AcEv: what CoreModel knows; AcFail k: accept of a listener of port k returns an error
   (the waiting connections stay where they are); AcUdp: a datagram, or a read error, at a
   udp port of the stream section *)
Inductive acev := AcEv (e : coev) | AcFail (k : lkind) | AcUdp.

Section Accept.
  Context (cf : ccfg).
  (* wmcore.rs:260-357.  A branch that completes ends the round: all branches are on in
     the next one. *)
  Definition acstep (s : ac) (e : acev) : ac * list coout :=
    match e with
    | AcEv (CAccept k) =>
      if off k s then (s, []) else
      match co_phase (ac_core s), take k (co_wait (ac_core s)) with
      | CListen, Some _ => let (c, o) := costep cf (ac_core s) (CAccept k) in (Ac c [], o)
      | _, _ => (s, [])
      end
    | AcEv e => let (c, o) := costep cf (ac_core s) e in (Ac c (ac_off s), o)
    | AcFail k =>
      match co_phase (ac_core s) with
      | CListen =>
        if own_branch k then
          (* tcp_listen_work 146-157 gives None, which `Some(..)` does not match *)
          (if off k s then s else Ac (ac_core s) (k :: ac_off s), [])
        else (* 293, 331: the branch completes, `if let Ok` skips the rest *)
          (Ac (ac_core s) [], [])
      | _ => (s, [])
      end
    | AcUdp => match co_phase (ac_core s) with CListen => (Ac (ac_core s) [], []) | _ => (s, []) end
    end.
  (* model only: the steps of a whole event list *)
  Fixpoint acrun (s : ac) (es : list acev) : ac * list coout :=
    match es with
    | [] => (s, [])
    | e :: es' => let (s1, o1) := acstep s e in let (s2, o2) := acrun s1 es' in (s2, o1 ++ o2)
    end.
End Accept.
