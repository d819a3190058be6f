(* Vocabulary for a tunnel that has come to rest. *)
From Coq Require Import String.
From Verif Require Import Base Text ProtModel ProtSpec CsModel CsSpec CcModel CcSpec TunSpec JoSpec.
Open Scope N_scope.

(* Nothing is on its way from the server to the client: nothing waits to be sent, the client
   has read all that was written and waits for more. *)
Record down_rest (kst : kst) (ktr : list keff) (st : sst) (tr : list eff) : Prop := DownRest {
  dr_work : s_work st = [];
  dr_out : s_out st = [];
  dr_buf : s_wbuf st = [];
  dr_read : kbytes_read ktr = written tr;
  dr_idle : k_phase kst = KSelect
}.
(* Nothing is on its way from the client to the server. *)
Record up_rest (kst : kst) (ktr : list keff) (st : sst) (tr : list eff) : Prop := UpRest {
  ur_out : k_out kst = [];
  ur_buf : k_wbuf kst = [];
  ur_read : bytes_read tr = kwritten ktr;
  ur_idle : s_phase st = PSelect
}.

(* What the client did for the streams of visitors, in order: it served one itself under the
   rules of a mapping, it contacted a local address, or the mapping has none. *)
Inductive contact := Served (m : mapping) | Contacted (a : N) | Nowhere.
Definition contacts (ktr : list keff) : list (N * contact) :=
  flat_map (fun e => match e with
                     | QProxy s _ m => [(s, Served m)]
                     | QConnect s _ a => [(s, Contacted a)]
                     | QNoAddr s _ => [(s, Nowhere)]
                     | _ => []
                     end) ktr.
(* the mode of a mapping is proxy, in any case of letters *)
Definition proxy_word (m : mapping) : Prop :=
  Forall2 (fun a b => a = b \/ a + 32 = b) (m_mode m) (txt "proxy").
(* the contact that a request for name d on stream s deserves *)
Definition deserves (ms : list mapping) (r : N * key) (x : N * contact) : Prop :=
  fst x = fst r /\ exists m, serves ms (snd r) m /\
    (proxy_word m /\ snd x = Served m \/
     ~ proxy_word m /\ (exists a, m_local m = Some a /\ snd x = Contacted a) \/
     ~ proxy_word m /\ m_local m = None /\ snd x = Nowhere).

(* Nobody has closed the connection and it has not failed. *)
Definition breaks (j : jev) : Prop :=
  match j with
  | AtServer (EvRead []) | AtServer EvReadErr | AtServer EvWriteErr
  | AtClient (KRead []) | AtClient KReadErr => True
  | _ => False
  end.
Definition unbroken (w : list jev) : Prop := Forall (fun j => ~ breaks j) w.
(* The two ends go on with what they have: they send what is queued, read what was sent,
   and visitors and local services take what is there for them.  Nobody asks, sends or
   leaves. *)
Definition goes_on (j : jev) : Prop :=
  match j with
  | AtServer EvWork | AtServer EvOut | AtServer (EvWrite _) | AtServer (EvRead (_ :: _))
  | AtServer EvDecode | AtServer (EvConsume _)
  | AtClient KOut | AtClient (KWrite _) | AtClient (KRead (_ :: _)) | AtClient KStep
  | AtClient (KConsume _) => True
  | _ => False
  end.
