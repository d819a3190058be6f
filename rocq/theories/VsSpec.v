(* Vocabulary for the stream end properties. *)
From Verif Require Import Base ProtModel VsModel.
Open Scope N_scope.

(* Bytes carried by frames *)
Definition payload (f : frame) : bytes := match f with FData _ d => d | _ => [] end.
Definition payloads (l : list frame) : bytes := flat_map payload l.
Definition is_end (f : frame) : Prop :=
  match f with FClose _ _ | FCreate _ _ => True | _ => False end.

(* Virtual stream: frames offered by the tunnel (as long as it is connected) *)
Fixpoint pushed (hung : bool) (es : list vev) : list frame :=
  match es with
  | [] => []
  | VPush f :: es' => if hung then pushed hung es' else f :: pushed hung es'
  | VHang :: es' => pushed true es'
  | _ :: es' => pushed hung es'
  end.
Definition vread (tr : list veff) : bytes :=
  flat_map (fun e => match e with WGot b => b | _ => [] end) tr.
Definition vsent (tr : list veff) : list frame :=
  flat_map (fun e => match e with WSent f => [f] | _ => [] end) tr.
(* buffers accepted by write; buffers passed to write, accepted or not *)
Definition accepted (tr : list veff) : list bytes :=
  flat_map (fun e => match e with WAccept b => [b] | _ => [] end) tr.
Definition offered (tr : list veff) : list bytes :=
  flat_map (fun e => match e with WAccept b | WRetry b => [b] | _ => [] end) tr.

(* every buffer handed to write *)
Definition written (es : list vev) : bytes :=
  flat_map (fun e => match e with VWrite b _ => b | _ => [] end) es.

(* Bridge *)
Definition sock_in (tr : list teff) : bytes :=
  flat_map (fun e => match e with XRead b => b | _ => [] end) tr.
Definition sock_out (tr : list teff) : bytes :=
  flat_map (fun e => match e with XWrote b => b | _ => [] end) tr.
Definition tunnel_in (tr : list teff) : list frame :=
  flat_map (fun e => match e with XRecv f => [f] | _ => [] end) tr.
Definition tunnel_out (tr : list teff) : list frame :=
  flat_map (fun e => match e with XSent f => [f] | _ => [] end) tr.
Definition data_of (id : N) (f : frame) : Prop := exists d, f = FData id d.
(* The bridge's own reasons to stop: its socket ends or fails, or its tunnel is
   gone.  A stream that ends at the other side of the tunnel is none of them. *)
Definition stops (e : tev) : bool :=
  match e with
  | TSockData [] | TSockEof | TSockErr | TWriteErr | THung | TRoom false => true
  | _ => false
  end.
