(* The whole tunnel, client and server together: vocabulary for the end to end
   properties.  The two machines are those of CsModel and CcModel; the connection
   between them is described by what each side has read being an initial part of
   what the other side has written. *)
From Verif Require Import Base Text ProtModel ProtSpec CsModel CsSpec CcModel CcSpec.
Open Scope N_scope.

Definition prefix {A} (a b : list A) : Prop := exists more, b = a ++ more.

(* The mappings in force at the server: those of the latest registration. *)
Definition registered (tr : list eff) : list mapping :=
  fold_left (fun acc e => match e with OMaps ms => ms | _ => acc end) tr [].

(* The name a visitor asks for, given the mappings in force: an HTTP visitor asks
   for its Host if some mapping has that domain; a tcp or proxy visitor asks for
   the name of the last mapping of that mode. *)
Definition wanted (ms : list mapping) (v : visit) (d : key) : Prop :=
  match v with
  | VHttp host => d = host /\ exists m, In m ms /\ m_domain m = host
  | VMode mode => exists before m after, ms = before ++ m :: after /\ m_mode m = mode /\
                    Forall (fun m' => m_mode m' <> mode) after /\ d = m_name m
  end.

(* The create frames in a list of frames, as (stream, name). *)
Definition creates (fs : list frame) : list (N * option key) :=
  flat_map (fun f => match f with FCreate s d => [(s, d)] | _ => [] end) fs.

(* The bytes carried by the data frames of stream s, concatenated. *)
Definition payload (s : N) (fs : list frame) : bytes :=
  flat_map (fun f => match f with FData s' d => if s' =? s then d else [] | _ => [] end) fs.

(* The requests of visitors so far, in order: a visit counts if some mapping in
   force answers it and the request queue (10 places) has room. *)
Inductive requests (c : creds) : list ev -> list (N * key) -> Prop :=
| rq_nil : requests c [] []
| rq_visit es l s v d :
    requests c es l -> wanted (registered (snd (run c (s_init c) es))) v d ->
    nlen (s_work (fst (run c (s_init c) es))) < work_cap ->
    requests c (es ++ [EvVisit s v]) (l ++ [(s, d)])
| rq_other es l e :
    requests c es l ->
    (forall s v d, e = EvVisit s v -> wanted (registered (snd (run c (s_init c) es))) v d ->
       work_cap <= nlen (s_work (fst (run c (s_init c) es)))) ->
    requests c (es ++ [e]) l.

(* The bytes visitors have put on stream s at the server, in order: data is taken
   from an opened stream while the send queue (100 places) has room. *)
Fixpoint visitor_bytes (c : creds) (s : N) (st : sst) (es : list ev) : bytes :=
  match es with
  | [] => []
  | e :: es' =>
    match e with
    | EvData s' d => if (s' =? s) && is_open s' st && (nlen (s_out st) <? out_cap) then d else []
    | _ => []
    end ++ visitor_bytes c s (fst (step c st e)) es'
  end.

(* The bytes local services have put on stream s at the client. *)
Fixpoint service_bytes (s : N) (st : kst) (es : list kev) : bytes :=
  match es with
  | [] => []
  | e :: es' =>
    match e with
    | KData s' d => if (s' =? s) && (nlen (k_out st) <? out_cap) then d else []
    | _ => []
    end ++ service_bytes s (fst (kstep st e)) es'
  end.

(* Events whose contents the wire format can carry (24-bit stream numbers, short
   strings, bytes below 256, data pieces below 16 MB). *)
Definition kev_ok (e : kev) : Prop :=
  match e with
  | KOpen s => wire_sock s
  | KData s d => fits (FData s d)
  | KClose s r => fits (FClose s r)
  | KRead b => bytes_ok b = true
  | _ => True
  end.
Definition ev_ok (e : ev) : Prop :=
  match e with
  | EvVisit s v => wire_sock s /\ match v with VHttp h => h <> [] /\ short_string h | VMode _ => True end
  | EvData s d => fits (FData s d)
  | EvClose s r => fits (FClose s r)
  | EvRead b => bytes_ok b = true
  | _ => True
  end.

(* A client and a server, configured with the same credentials (both or none),
   connected by a byte stream that delivers what is written, in order; [ms] are
   the mappings of the client. *)
Record tunnel (c : creds) (ms : list mapping) (kes : list kev) (es : list ev)
  (kst : kst) (ktr : list keff) (st : sst) (tr : list eff) : Prop := Tunnel {
  t_client : krun (k_init c ms) kes = (kst, ktr);
  t_server : run c (s_init c) es = (st, tr);
  t_up : prefix (bytes_read tr) (kwritten ktr);
  t_down : prefix (kbytes_read ktr) (written tr);
  t_creds : (exists u p, c = Creds (Some u) (Some p) /\ short_string u /\ short_string p) \/
            c = Creds None None;
  t_maps : fits (FMapping 0 ms) /\ Forall (fun m => m_name m <> []) ms;
  t_kev : Forall kev_ok kes;
  t_ev : Forall ev_ok es
}.

(* What the client says first: its credentials if it has them, and its mappings if it has
   any. *)
Definition greeting (c : creds) (ms : list mapping) : list frame :=
  match c with Creds (Some u) (Some p) => [FToken u p] | _ => [] end ++
  match ms with [] => [] | _ => [FMapping 0 ms] end.

(* No two mappings can be confused: nobody's name or domain is another's name or
   domain, and modes used for tcp and proxy visits are unique. *)
Definition unambiguous (ms : list mapping) : Prop :=
  forall a m b m' c, ms = a ++ m :: b ++ m' :: c ->
    m_name m <> m_name m' /\ m_domain m <> m_domain m' /\ m_name m <> m_domain m' /\
    m_domain m <> m_name m'.

(* The mapping a visitor means. *)
Definition meant (ms : list mapping) (v : visit) (m : mapping) : Prop :=
  match v with
  | VHttp host => In m ms /\ m_domain m = host
  | VMode mode => exists before after, ms = before ++ m :: after /\ m_mode m = mode /\
                    Forall (fun m' => m_mode m' <> mode) after
  end.
