(* Vocabulary for the tunnel client properties. *)
From Coq Require Import String.
From Verif Require Import Base Text ProtModel CsModel CsSpec CcModel.
Open Scope N_scope.

Definition kbytes_read (tr : list keff) : bytes :=
  flat_map (fun e => match e with QRead b => b | _ => [] end) tr.
Definition kdecoded (tr : list keff) : list frame :=
  flat_map (fun e => match e with QDecoded f => [f] | _ => [] end) tr.

(* The mapping that has to serve domain d: it matches and no later one does. *)
Definition hits (d : key) (m : mapping) : Prop := m_domain m = d \/ m_name m = d.
Definition serves (ms : list mapping) (d : key) (m : mapping) : Prop :=
  exists before after, ms = before ++ m :: after /\ hits d m /\ Forall (fun m' => ~ hits d m') after.
Definition asked (dom : option key) : key := match dom with Some d => d | None => [] end.

(* Frames given to / received by handler h; frames lost on the way to it. *)
Definition kgiven (h : N) (tr : list keff) : list frame :=
  flat_map (fun e => match e with
                     | QPut h' f | QBye h' f => if h' =? h then [f] else []
                     | _ => [] end) tr.
Definition kgot (h : N) (tr : list keff) : list frame :=
  flat_map (fun e => match e with QGot h' f => if h' =? h then [f] else [] | _ => [] end) tr.
Definition kmissed (h : N) (tr : list keff) : list frame :=
  flat_map (fun e => match e with QLost h' f => if h' =? h then [f] else [] | _ => [] end) tr.
Definition khanded (tr : list keff) : list (N * frame) :=
  flat_map (fun e => match e with QPut h f => [(h, f)] | _ => [] end) tr.
Definition ktried (tr : list keff) : list (N * frame) :=
  flat_map (fun e => match e with QPut h f | QLost h f => [(h, f)] | _ => [] end) tr.

(* The routing rule. Stream id 0 is the tunnel itself. *)
Fixpoint kroute (bound : N -> option N) (tr : list keff) : list (N * frame) :=
  match tr with
  | [] => []
  | QBind s h :: tr' => kroute (rebind bound s h) tr'
  | QDecoded f :: tr' =>
    match f with
    | FData s _ =>
      match bound s with Some h => (h, f) :: kroute bound tr' | None => kroute bound tr' end
    | FClose s _ =>
      if s =? 0 then kroute bound tr'
      else match bound s with Some h => (h, f) :: kroute bound tr' | None => kroute bound tr' end
    | _ => kroute bound tr'
    end
  | _ :: tr' => kroute bound tr'
  end.

(* l1 is a subsequence of l2 *)
Inductive subseq {A} : list A -> list A -> Prop :=
| sub_nil l : subseq [] l
| sub_take x l1 l2 : subseq l1 l2 -> subseq (x :: l1) (x :: l2)
| sub_skip x l1 l2 : subseq l1 l2 -> subseq l1 (x :: l2).

(* Bytes written to the tunnel *)
Definition kwritten (tr : list keff) : bytes :=
  flat_map (fun e => match e with QWrote b => b | _ => [] end) tr.
