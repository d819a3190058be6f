(* Vocabulary for the tunnel server properties, in terms of the trace of
   observable effects only. *)
From Verif Require Import Base Text ProtModel ProtSpec CsModel.
Open Scope N_scope.

(* Everything read from / written to the tunnel socket so far. *)
Definition bytes_read (tr : list eff) : bytes :=
  flat_map (fun e => match e with ORead b => b | _ => [] end) tr.
Definition written (tr : list eff) : bytes :=
  flat_map (fun e => match e with OWrote b => b | _ => [] end) tr.

(* The frames contained in a byte string. *)
Definition frames (b : bytes) : list frame := fst (fst (drain (S (length b)) b)).

(* The credentials a token must match. *)
Definition matches (c : creds) (u p : key) : Prop :=
  (forall u', c_user c = Some u' -> u = u') /\ (forall p', c_pass c = Some p' -> p = p').

(* Service on behalf of the peer. *)
Definition service (e : eff) : Prop :=
  match e with
  | ODecoded _ | OBind _ _ | OServe _ _ | OMaps _ | OPut _ _ | ODrop _ _ => True
  | _ => False
  end.

Definition is_close (f : frame) : Prop := match f with FClose _ _ => True | _ => False end.

(* Frames accepted for processing, in order. *)
Definition decoded (tr : list eff) : list frame :=
  flat_map (fun e => match e with ODecoded f => [f] | _ => [] end) tr.

(* Frames handed to handlers (or found the handler gone), in order. *)
Definition handed (tr : list eff) : list (N * frame) :=
  flat_map (fun e => match e with OPut h f | ODrop h f => [(h, f)] | _ => [] end) tr.

(* Frames handler h was given / has received. *)
Definition given (h : N) (tr : list eff) : list frame :=
  flat_map (fun e => match e with
                     | OPut h' f | OBye h' f => if h' =? h then [f] else []
                     | _ => [] end) tr.
Definition got (h : N) (tr : list eff) : list frame :=
  flat_map (fun e => match e with OGot h' f => if h' =? h then [f] else [] | _ => [] end) tr.

(* The routing rule: a data or close frame goes to the handler to which its
   stream id was last bound; everything else goes nowhere. *)
Definition rebind (bound : N -> option N) (s h : N) : N -> option N :=
  fun x => if x =? s then Some h else bound x.
Fixpoint route (bound : N -> option N) (tr : list eff) : list (N * frame) :=
  match tr with
  | [] => []
  | OBind s h :: tr' => route (rebind bound s h) tr'
  | ODecoded f :: tr' =>
    match f with
    | FData s _ | FClose s _ =>
      match bound s with Some h => (h, f) :: route bound tr' | None => route bound tr' end
    | _ => route bound tr'
    end
  | _ :: tr' => route bound tr'
  end.

(* The frame the loop is waiting to hand over. *)
Definition pending (st : sst) : list (N * frame) :=
  match s_phase st with PBlocked h f => [(h, f)] | _ => [] end.
