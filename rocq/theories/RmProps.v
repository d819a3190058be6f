(* C188: a client passed on through a tunnel is served under the settings of the other side. *)
From Coq Require Import String.
From Verif Require Import Base Text TextOps ProtModel ProtSpec ProtProofs CsModel CsSpec CcModel CcSpec TunSpec TunServer TunClient TunProofs TunFlow TunProps JoSpec JoProofs JoProps
  AddrModel ConfModel CoreModel CoreProps SocksModel SocksSpec SocksProofs SocksProps HttpProxyModel HttpProxyProofs HttpProxyProps ArgModel ArgProps OpModel OpSpec OpProofs OpProps BuModel PlModel PlSpec PlProps PxModel PxProps RmModel RmSpec RmProofs RmBack.
Open Scope N_scope.

(* what the service of a stream reads is an initial part of what the client sent on it, and
   that goes for every stream that is asked for before it is used *)
Theorem C188_bytes : forall c ms kes es kst ktr st tr, tunnel c ms kes es kst ktr st tr ->
  forall a s h b, tr = a ++ OServe s h :: b -> (forall h', ~ In (OServe s h') a) ->
  asks_first (k_init c ms) kes -> opens_first (k_init c ms) s kes ->
  prefix (payload s (CsSpec.got h tr)) (service_bytes s (k_init c ms) kes).
Proof.
  intros c ms kes es kst ktr st tr T a s h b E Fi Af Of.
  destruct (early_quiet _ _ _ _ _ _ _ _ T _ _ _ _ E Fi Af Of) as (a' & Ea & Q).
  apply (C89_visitor_gets _ _ _ _ _ _ _ _ T a' s h (OServe s h :: b)); [rewrite E, Ea, <- app_assoc; reflexivity|exact Q].
Qed.

(* And what the client gets back is an initial part of what the service wrote, if the stream
   is not used by a visitor of the other side and this side dropped nothing on a full queue
   (see C11). *)
Theorem C188_back_partial : forall c ms w, whole c ms w ->
  forall a s h b, kseen c ms w = a ++ QBind s h :: b -> (forall h', ~ In (QBind s h') a) ->
  (forall v, ~ In (EvVisit s v) (evs w)) -> (forall f, ~ In (QLost h f) (kseen c ms w)) ->
  prefix (payload s (CcSpec.kgot h (kseen c ms w))) (visitor_bytes c s (s_init c) (evs w)).
Proof.
  intros c ms w W a s h b E Ha Hv Hl.
  apply (C89_service_gets_partial _ _ _ _ _ _ _ _ (whole_tunnel _ _ _ W) a s h b E); [|exact Hl].
  exact (early_silent_opener c ms w s a h b W E Ha Hv).
Qed.

Section C188.
  Context (parse_ip : text -> option ipaddr) (parse_sa : text -> option saddr) (local4 local6 : option ipaddr).
  Notation reads := (reads parse_ip parse_sa local4 local6).
  Context (read_file : text -> option text) (yaml toml : text -> option (@copt (list (text * list val))))
          (load_http : asection -> option asection) (load_stream : asection -> asection) (show_sa : saddr -> text).
  Notation asked_start := (asked_start parse_ip parse_sa local4 local6 read_file yaml toml load_http load_stream show_sa).
  Context (requests : inp -> list (hreq * bool * option bool)) (resolve : bytes -> N -> option (list saddr)) (connect : saddr -> bool).
  Notation deal_remote := (deal_remote requests resolve connect).

  (* a stream of a tunnel into the proxy started with the words ws: the first service of
     stream s at the other side, and the pieces segs its bytes were read in *)
  Record stream_into (x : list (text * list val)) (ms : list mapping) (kes : list kev) (s h : N) (tr : list eff) (segs : list bytes) : Prop := StreamInto {
    si_tunnel : exists es kst ktr st, tunnel (remote_creds (section_of x)) ms kes es kst ktr st tr;
    si_serve : exists a b, tr = a ++ OServe s h :: b /\ forall h', ~ In (OServe s h') a;
    si_first : asks_first (k_init (remote_creds (section_of x)) ms) kes /\ opens_first (k_init (remote_creds (section_of x)) ms) s kes;
    si_read : List.concat segs = payload s (CsSpec.got h tr) /\ Forall (fun y => y <> []) segs
  }.

  Lemma stream_bytes x ms kes s h tr segs : stream_into x ms kes s h tr segs ->
    prefix (List.concat segs) (service_bytes s (k_init (remote_creds (section_of x)) ms) kes).
  Proof.
    intros [(es & kst & ktr & st & T) (a & b & E & Fi) (Af & Of) (R & _)]. rewrite R. exact (C188_bytes _ _ _ _ _ _ _ _ T _ _ _ _ E Fi Af Of).
  Qed.

  (* C188: the other side, started with --user u and --pass p, passes on nothing for a client
     of this side unless the client itself names them: that this side said them when the
     tunnel was made does not count.  A protocol its --flag leaves out is not served.
     Missing: as in C187, over HTTP the target of a request without them is connected to
     nevertheless. *)
  Theorem C188_needs_login_partial : forall argv ws o, asked_start argv (txt "proxy" :: ws) = Some o ->
    exists os f x, spelled ws (flat_map written os) /\ means reads (Or TFlag (VFlag (1 + 2 + 4))) (given "flag" os) [VFlag f] /\ o_proxy o = Some x /\
    said "user" os (c_user (remote_creds (section_of x))) /\ said "pass" os (c_pass (remote_creds (section_of x))) /\
    forall ms kes s h tr segs room, stream_into x ms kes s h tr segs ->
    let client := service_bytes s (k_init (remote_creds (section_of x)) ms) kes in
    match deal_remote (section_of x) room segs with
    | GTunnel _ => False
    | GHttp l => takes_http f /\ exists i, prefix (sent i) client /\
        forall u p, said "user" os (Some u) -> said "pass" os (Some p) -> bytes_ok u = true -> bytes_ok p = true ->
        forall k ev a, nth_error l k = Some (ev, a) -> passes_on ev ->
          exists j q d r v, (j <= k)%nat /\ nth_error (requests i) j = Some (q, d, r) /\ q_auth q = Some v /\ names_user u p v
    | GSocks (ev, _) => takes_socks f /\
        forall u p, said "user" os (Some u) -> said "pass" os (Some p) ->
        forall e, In e ev -> (forall w, e <> EvWrite w) ->
          exists methods rest, client = SocksSpec.greeting methods ++ credentials u p ++ rest
    | GNobody => True
    end.
  Proof.
    intros argv ws o H. destruct (C178_section _ _ _ _ _ _ _ _ _ _ _ _ _ H) as (os & x & S & Ex & B & _).
    destruct B as (_ & _ & _ & Fl & Sv & Us & Pa & _). exists os, (bu_flag (section_of x)), x.
    split; [exact S|]. split; [exact Fl|]. split; [exact Ex|]. split; [exact Us|]. split; [exact Pa|]. intros ms kes s h tr segs room SI client.
    pose proof (stream_bytes _ _ _ _ _ _ _ SI) as PB. fold client in PB. destruct SI as [_ _ _ (_ & A)].
    unfold RmModel.deal_remote, deal_proxy. set (sc := section_of x) in *. destruct (detect (bu_flag sc) room segs) as [i|i| |] eqn:D; try exact I.
    - destruct (C48_bytes _ _ _ _ A (or_introl D)) as (Se & _). split.
      + apply http_on. unfold detect in D. destruct (has_http (bu_flag sc)); [reflexivity|]. unfold to_socks in D. destruct (f_contains _ _); discriminate D.
      + exists i. split; [rewrite Se; exact PB|]. intros u p Hu Hp Bu Bp k ev a Nk Po.
        destruct (C36_connection_partial (HCfg (bu_user sc) (bu_pass sc)) (requests i) k ev a Nk Po) as (j & q & d & r & L & Nj & C).
        destruct (C u p) as (v & Ev & Ch); [cbn [h_user]; exact (said_one _ _ _ _ Us Hu)|cbn [h_pass]; exact (said_one _ _ _ _ Pa Hp)|].
        apply (C36_check u p v Bu Bp) in Ch as (sch & more & Ch & _). exists j, q, d, r, v. split; [exact L|]. split; [exact Nj|]. split; [exact Ev|]. exists sch, more. exact Ch.
    - destruct (C48_bytes _ _ _ _ A (or_intror D)) as (Se & _). destruct (process resolve connect (SCfg (bu_user sc) (bu_pass sc) (bu_udp sc)) i) as [ev out] eqn:E. split.
      + unfold takes_socks. rewrite <- (proj2 (proj2 (has_bit (bu_flag sc)))). unfold detect, to_socks in D. destruct (f_contains (bu_flag sc) f_socks5); [reflexivity|]. exfalso.
        destruct (has_http (bu_flag sc)); [|discriminate D]. destruct segs as [|y ys]; [discriminate D|]. destruct (firstn room y) as [|z zs]; [discriminate D|]. destruct (z =? 5); discriminate D.
      + intros u p Hu Hp e Ie Ne.
        destruct (C33_auth resolve connect (SCfg (bu_user sc) (bu_pass sc) (bu_udp sc)) u p i ev out e) as (mt & rq & rest & Eq & _); try assumption.
        * cbn [user]. exact (said_one _ _ _ _ Us Hu).
        * cbn [pass]. exact (said_one _ _ _ _ Pa Hp).
        * destruct PB as (m & PB). exists mt, (rq ++ rest ++ m). rewrite PB, <- Se, Eq, <- !app_assoc. reflexivity.
  Qed.

  (* and a SOCKS5 client of this side that names them and asks for a target the other side
     can reach is connected to it, as soon as its words have arrived *)
  Theorem C188_admitted : forall argv ws o, asked_start argv (txt "proxy" :: ws) = Some o ->
    exists os f x, spelled ws (flat_map written os) /\ means reads (Or TFlag (VFlag (1 + 2 + 4))) (given "flag" os) [VFlag f] /\ o_proxy o = Some x /\
    (takes_socks f -> forall u p, said "user" os (Some u) -> said "pass" os (Some p) -> u <> [] -> p <> [] ->
     forall ms kes s h tr segs room methods a request rest, stream_into x ms kes s h tr segs -> (0 < room)%nat -> In 2 methods -> nlen methods < 256 ->
     asks resolve request a -> connect a = true ->
     service_bytes s (k_init (remote_creds (section_of x)) ms) kes = SocksSpec.greeting methods ++ credentials u p ++ request_msg 1 request ++ rest ->
     nlen (SocksSpec.greeting methods ++ credentials u p ++ request_msg 1 request) <= nlen (payload s (CsSpec.got h tr)) ->
     exists early d, prefix (early ++ d) rest /\
       deal_remote (section_of x) room segs = GSocks ([EvWrite [5; 2]; EvWrite [1; 0]; EvConnect a; EvWrite [5; 0; 0; 1; 0; 0; 0; 0; 0; 0]; EvForward d], Done)).
  Proof.
    intros argv ws o H. destruct (C178_section _ _ _ _ _ _ _ _ _ _ _ _ _ H) as (os & x & S & Ex & B & _).
    destruct B as (_ & _ & _ & Fl & Sv & Us & Pa & _). exists os, (bu_flag (section_of x)), x.
    split; [exact S|]. split; [exact Fl|]. split; [exact Ex|]. intros F u p Hu Hp Nu Np ms kes s h tr segs room mt a rq rest SI R M L As C Eq Le.
    pose proof (stream_bytes _ _ _ _ _ _ _ SI) as PB. destruct SI as [_ _ _ (Rd & A)]. rewrite <- Rd in Le. rewrite Eq in PB.
    replace (SocksSpec.greeting mt ++ credentials u p ++ request_msg 1 rq ++ rest) with ((SocksSpec.greeting mt ++ credentials u p ++ request_msg 1 rq) ++ rest) in PB by (rewrite <- !app_assoc; reflexivity).
    assert (X : exists r1, List.concat segs = (SocksSpec.greeting mt ++ credentials u p ++ request_msg 1 rq) ++ r1 /\ prefix r1 rest).
    { revert PB Le. generalize (SocksSpec.greeting mt ++ credentials u p ++ request_msg 1 rq). generalize (List.concat segs). clear.
      intros l g. revert l. induction g as [|y g IH]; intros l P Le; [exists l; split; [reflexivity|exact P]|].
      destruct l as [|z l]; [rewrite nlen_cons in Le; change (nlen []) with 0 in Le; lia|]. destruct P as (m & P). cbn [app] in P. injection P as -> P.
      destruct (IH l) as (r1 & -> & P1); [exists m; exact P|rewrite !nlen_cons in Le; lia|]. exists r1. split; [reflexivity|exact P1]. }
    destruct X as (r1 & Eq1 & P1). rewrite <- !app_assoc in Eq1.
    unfold RmModel.deal_remote, deal_proxy. set (sc := section_of x) in *. unfold takes_socks in F. rewrite <- (proj2 (proj2 (has_bit (bu_flag sc)))) in F.
    destruct (detect_choice (bu_flag sc) room segs 5 (nlen mt :: mt ++ credentials u p ++ request_msg 1 rq ++ r1) R A Eq1) as (i & D).
    change (5 =? 5) with true in D. cbn iota in D. unfold to_socks in D. rewrite F in D.
    assert (D' : detect (bu_flag sc) room segs = ToSocks i) by (destruct (has_http (bu_flag sc)); exact D). rewrite D'.
    destruct (C48_bytes _ _ _ _ A (or_intror D')) as (Se & AL).
    destruct (C33_accepted resolve connect (SCfg (bu_user sc) (bu_pass sc) (bu_udp sc)) u p mt a rq r1 i) as (e & d & E & Pr); try assumption.
    - cbn [user]. exact (said_one _ _ _ _ Us Hu).
    - cbn [pass]. exact (said_one _ _ _ _ Pa Hp).
    - rewrite Se. exact Eq1.
    - exists e, d. rewrite <- E. split; [exact P1|]. now rewrite Pr.
  Qed.
End C188.

Definition rm_line : option (@copt (list (text * list val))) :=
  asked_start (fun _ => None) ex_sa None None (fun _ => None) (fun _ => None) (fun _ => None) (fun s => Some s) (fun s => s) (fun _ => []) [] (map txt ["proxy"; "--user"; "u"; "--pass"; "p"; "-b"; "0.0.0.0:8091"]%string).
Definition rm_section : list (text * list val) := match rm_line with Some o => match o_proxy o with Some x => x | None => [] end | None => [] end.
Definition rm_c : creds := remote_creds (section_of rm_section).
Definition rm_ask : bytes := SocksSpec.greeting [2] ++ credentials (txt "u") (txt "p") ++ px_ask.
Definition rm_kes : list kev := [KOpen 1; KWork; KStep; KData 1 rm_ask; KOut; KStep; KWrite 1000].
Definition rm_up : bytes := kwritten (snd (krun (k_init rm_c []) rm_kes)).
Definition rm_es : list ev := [EvRead rm_up; EvDecode; EvDecode; EvDecode; EvConsume 0].
Definition rm_tr : list eff := snd (run rm_c (s_init rm_c) rm_es).
Example C188_case_line : rm_line <> None /\ option_map (fun o => o_proxy o) rm_line = Some (Some rm_section).
Proof. split; [vm_compute; discriminate|vm_compute; reflexivity]. Qed.
Lemma rm_tunnel : exists es kst ktr st, tunnel rm_c [] rm_kes es kst ktr st rm_tr.
Proof.
  assert (Ec : rm_c = Creds (Some (txt "u")) (Some (txt "p"))) by (vm_compute; reflexivity).
  exists rm_es, (fst (krun (k_init rm_c []) rm_kes)), (snd (krun (k_init rm_c []) rm_kes)), (fst (run rm_c (s_init rm_c) rm_es)).
  assert (A : kwritten (snd (krun (k_init rm_c []) rm_kes)) = rm_up /\ kbytes_read (snd (krun (k_init rm_c []) rm_kes)) = []) by (split; vm_compute; reflexivity).
  assert (B : CsSpec.written rm_tr = [] /\ bytes_read rm_tr = rm_up) by (split; vm_compute; reflexivity).
  assert (U : exists x, rm_up = x /\ bytes_ok x = true) by (eexists; split; [vm_compute; reflexivity|reflexivity]).
  constructor.
  - apply surjective_pairing.
  - apply surjective_pairing.
  - rewrite (proj1 A), (proj2 B). apply prefix_refl.
  - rewrite (proj2 A), (proj1 B). apply prefix_refl.
  - left. exists (txt "u"), (txt "p"). split; [exact Ec|]. unfold short_string. split; all_ok.
  - split; [|constructor]. cbn [fits]. split; [ok|]. split; [reflexivity|]. split; [constructor|reflexivity].
  - unfold rm_kes. assert (F : fits (FData 1 rm_ask)).
    { replace rm_ask with ([5; 1; 2; 1; 1; 117; 1; 112; 5; 1; 0; 1; 1; 2; 3; 4; 0; 80] : bytes) by (vm_compute; reflexivity). cbn [fits]. all_ok. }
    repeat (apply Forall_cons; [first [exact F|cbn [kev_ok]; all_ok]|]). apply Forall_nil.
  - unfold rm_es. destruct U as (x & -> & U). repeat (apply Forall_cons; [first [exact U|exact I]|]). apply Forall_nil.
Qed.
Example C188_case : stream_into rm_section [] rm_kes 1 0 rm_tr [rm_ask] /\
  service_bytes 1 (k_init rm_c []) rm_kes = rm_ask /\
  deal_remote (fun _ => []) (fun _ _ => None) (fun _ => true) (section_of rm_section) 24 [rm_ask] =
    GSocks ([EvWrite [5; 2]; EvWrite [1; 0]; EvConnect px_target; EvWrite [5; 0; 0; 1; 0; 0; 0; 0; 0; 0]; EvForward []], Done).
Proof.
  split; [|split; vm_compute; reflexivity]. constructor.
  - exact rm_tunnel.
  - exists (firstn 4 rm_tr), (skipn 5 rm_tr). split; [vm_compute; reflexivity|]. intros h' H. vm_compute in H. repeat destruct H as [H|H]; try discriminate H. destruct H.
  - split.
    + intros e1 e2 E. do 7 (destruct e1 as [|? e1]; [try discriminate E; vm_compute; reflexivity|injection E as <- E]). destruct e1; discriminate E.
    + intros e1 d e2 E. do 3 (destruct e1 as [|? e1]; [discriminate E|injection E as <- E]). destruct e1 as [|? e1].
      * exists [], [KWork; KStep]. split; [reflexivity|vm_compute; reflexivity].
      * exfalso. injection E as <- E. do 3 (destruct e1 as [|? e1]; [discriminate E|injection E as <- E]). destruct e1; discriminate E.
  - split; [vm_compute; reflexivity|]. constructor; [|constructor]. vm_compute. discriminate.
Qed.
(* the same exchange as one history, with the answer on its way back *)
Definition rm_reply : bytes := [5; 2; 1; 0; 5; 0; 0; 1; 0; 0; 0; 0; 0; 0].
Definition rm_es2 : list ev := [EvDecode; EvData 1 rm_reply; EvOut; EvDecode; CsModel.EvWrite 1000; EvDecode].
Definition rm_down : bytes := CsSpec.written (snd (run rm_c (s_init rm_c) (rm_es ++ rm_es2))).
Definition rm_w : list jev := map AtClient rm_kes ++ map AtServer (rm_es ++ rm_es2) ++ map AtClient [KStep; KRead rm_down; KStep; KStep; KConsume 0].
Example C188_case_back : whole rm_c [] rm_w /\ (exists b, kseen rm_c [] rm_w = QBind 1 0 :: b) /\
  (forall v, ~ In (EvVisit 1 v) (evs rm_w)) /\ (forall f, ~ In (QLost 0 f) (kseen rm_c [] rm_w)) /\
  payload 1 (CcSpec.kgot 0 (kseen rm_c [] rm_w)) = rm_reply.
Proof.
  split; [|split; [eexists; vm_compute; reflexivity|split; [|split; [|vm_compute; reflexivity]]]].
  - destruct rm_tunnel as (es & kst & ktr & st & [_ _ _ _ A B C _]).
    assert (U : exists x, rm_up = x /\ bytes_ok x = true) by (eexists; split; [vm_compute; reflexivity|reflexivity]).
    assert (V : exists x, rm_down = x /\ bytes_ok x = true) by (eexists; split; [vm_compute; reflexivity|reflexivity]).
    constructor; [|exact A|exact B| |].
    + apply causal_check. vm_compute. reflexivity.
    + replace (kevs rm_w) with (rm_kes ++ [KStep; KRead rm_down; KStep; KStep; KConsume 0]) by (vm_compute; reflexivity). apply Forall_app. split; [exact C|].
      destruct V as (x & -> & V). repeat (apply Forall_cons; [first [exact V|exact I]|]). apply Forall_nil.
    + replace (evs rm_w) with (rm_es ++ rm_es2) by (vm_compute; reflexivity). unfold rm_es, rm_es2. cbn [app]. destruct U as (x & -> & U).
      assert (F : fits (FData 1 rm_reply)) by (unfold rm_reply; cbn [fits]; all_ok).
      repeat (apply Forall_cons; [first [exact U|exact F|exact I]|]). apply Forall_nil.
  - assert (X : forallb (fun e => match e with EvVisit _ _ => false | _ => true end) (evs rm_w) = true) by (vm_compute; reflexivity).
    intros v H. rewrite forallb_forall in X. specialize (X _ H). discriminate X.
  - assert (X : forallb (fun e => match e with QLost _ _ => false | _ => true end) (kseen rm_c [] rm_w) = true) by (vm_compute; reflexivity).
    intros f H. rewrite forallb_forall in X. specialize (X _ H). discriminate X.
Qed.
Print Assumptions C188_bytes.
Print Assumptions C188_back_partial.
Print Assumptions C188_needs_login_partial.
Print Assumptions C188_admitted.
