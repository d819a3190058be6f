(* C161: the header rules of a proxy mapping. *)
From Coq Require Import String.
From Verif Require Import Base Text TextOps ProtModel ConfModel AddrModel SocksModel HttpProxyModel HttpProxyProps TransModel PhModel.
Open Scope N_scope.

(* ---- what the rules say, one after the other -------------------------------------------- *)
(* a rule with the word proxy is for requests, the others for responses; add and replace
   give a further line, del takes the lines of that name away, default gives a line when
   there is none of that name *)
Inductive by_rule (same : text -> text -> bool) (conv : text -> text) : cheader -> headers -> headers -> Prop :=
| ByAdd r h : ch_oper r = OAdd \/ ch_oper r = OReplace -> by_rule same conv r h (h ++ [(ch_key r, conv (ch_val r))])
| ByDel r h : ch_oper r = ODel -> by_rule same conv r h (filter (fun kv => negb (same (ch_key r) (fst kv))) h)
| ByHas r h kv : ch_oper r = ODefault -> In kv h -> same (ch_key r) (fst kv) = true -> by_rule same conv r h h
| ByNew r h : ch_oper r = ODefault -> (forall kv, In kv h -> same (ch_key r) (fst kv) = false) -> by_rule same conv r h (h ++ [(ch_key r, conv (ch_val r))]).
Inductive by_rules (same : text -> text -> bool) (conv : text -> text) (request : bool) : list cheader -> headers -> headers -> Prop :=
| RDone h : by_rules same conv request [] h h
| RSkip r l h h' : ch_proxy r <> request -> by_rules same conv request l h h' -> by_rules same conv request (r :: l) h h'
| RTake r l h h1 h' : ch_proxy r = request -> by_rule same conv r h h1 -> by_rules same conv request l h1 h' -> by_rules same conv request (r :: l) h h'.
(* the lines of h without those named k *)
Definition without (same : text -> text -> bool) (k : text) (h : headers) : headers := filter (fun kv => negb (same k (fst kv))) h.

Section Props.
  Context (same : text -> text -> bool) (conv : text -> text) (target : text -> headers -> option text).
  Notation operate := (p_operate same conv target).
  Notation run := (p_run same conv target).

  Lemma rule_ok r h : by_rule same conv r h (rewrite_header same conv r h).
  Proof.
    unfold rewrite_header, rewrite_with, h_push, h_remove, h_contains. destruct (ch_oper r) eqn:E; try (constructor; auto; fail).
    destruct (existsb (fun kv => same (ch_key r) (fst kv)) h) eqn:X.
    - apply existsb_exists in X. destruct X as (kv & I & Q). eapply ByHas; eassumption.
    - apply ByNew; [exact E|]. intros kv I. destruct (same (ch_key r) (fst kv)) eqn:Q; [|reflexivity]. assert (existsb (fun kv => same (ch_key r) (fst kv)) h = true) by (apply existsb_exists; eauto). congruence.
  Qed.
  Lemma request_ok l : forall h, by_rules same conv true l h (rewrite_request same conv l h).
  Proof.
    unfold rewrite_request. induction l as [|r l IH]; intros h; [constructor|]. cbn [fold_left]. destruct (ch_proxy r) eqn:E.
    - eapply RTake; [exact E|apply rule_ok|apply IH].
    - apply RSkip; [congruence|apply IH].
  Qed.
  Lemma response_ok l : forall h, by_rules same conv false l h (rewrite_response same conv l h).
  Proof.
    unfold rewrite_response. induction l as [|r l IH]; intros h; [constructor|]. cbn [fold_left]. destruct (ch_proxy r) eqn:E.
    - apply RSkip; [congruence|apply IH].
    - eapply RTake; [exact E|apply rule_ok|apply IH].
  Qed.
  (* without rules the headers are as they came *)
  Definition ruled (request : bool) (m : option mapping) (h h' : headers) : Prop :=
    match m with Some x => by_rules same conv request (rules x) h h' | None => h' = h end.
  Lemma ruled_request c m h : ruled true m h (deal_request same conv (proxy_of c m) h).
  Proof. destruct m as [x|]; [apply request_ok|reflexivity]. Qed.
  Lemma ruled_response c m h : ruled false m h (deal_response same conv (proxy_of c m) h).
  Proof. destruct m as [x|]; [apply response_ok|reflexivity]. Qed.

  Lemma run_at c qs : forall s i q d b, nth_error qs i = Some (q, d, b) ->
    exists s', nth_error (snd (run c s qs)) i = Some (snd (fst (operate c s' q d b)), snd (operate c s' q d b)).
  Proof.
    induction qs as [|[[q0 d0] b0] qs IH]; intros s i q d b H; [destruct i; discriminate|]. cbn [p_run].
    destruct (operate c s q0 d0 b0) as [[s1 ev] a] eqn:E. specialize (IH s1). destruct (run c s1 qs) as [s2 l]. cbn [snd] in *.
    destruct i as [|i]; cbn [nth_error] in *.
    - injection H as <- <- <-. exists s. rewrite E. reflexivity.
    - apply IH. exact H.
  Qed.
  (* C161: on every connection of the proxy of a mapping, every request sent to a target
     carries the client's headers as the rules for requests make them, in their order; the
     Proxy-Authorization lines are gone or all there *)
  Theorem C161_requests : forall c m qs i q d b ev a t h, nth_error qs i = Some (q, d, b) ->
    nth_error (snd (run (proxy_of c m) fresh qs)) i = Some (ev, a) -> In (PSend t h) ev ->
    exists h', ruled true m (pq_headers q) h' /\ (h = h' \/ h = without same (txt "Proxy-Authorization") h').
  Proof.
    intros c m qs i q d b ev a t h N R I. destruct (run_at (proxy_of c m) qs fresh i q d b N) as (s' & E). rewrite E in R. injection R as <- <-.
    exists (deal_request same conv (proxy_of c m) (pq_headers q)). split; [apply ruled_request|].
    unfold p_operate in I. destruct (k_conn s').
    - destruct I as [I|[]]. left. congruence.
    - destruct (target _ _) as [t'|]; [|destruct I]. destruct d; cbn [negb] in I; [|destruct I as [I|[]]; discriminate I].
      destruct (h_auth (pc_auth (proxy_of c m))) as [[u p]|].
      + destruct (match auth_of same _ with Some v => check_basic_auth u p v | None => Ok false end) as [[]| |]; try (destruct I as [I|[]]; discriminate I).
        destruct (pq_connect q); cbn in I; destruct I as [I|[I|[]]]; try discriminate I. right. injection I as _ <-. reflexivity.
      + destruct (pq_connect q); cbn in I; destruct I as [I|[I|[]]]; try discriminate I. left. congruence.
  Qed.
  (* and every answer of a target is passed on with its status and the headers as the rules
     for responses make them; the proxy's own answers are a 200 for CONNECT and a 407 *)
  Theorem C161_responses : forall c m qs i q d b ev a, nth_error qs i = Some (q, d, b) ->
    nth_error (snd (run (proxy_of c m) fresh qs)) i = Some (ev, Ok a) ->
    match a with
    | PFrom n h => exists h0, b = PResp n h0 /\ ruled false m h0 h /\ exists t h', In (PSend t h') ev
    | POwn n => (n = 200 /\ pq_connect q = true \/ n = 407) /\ forall t h', ~ In (PSend t h') ev
    end.
  Proof.
    intros c m qs i q d b ev a N R. destruct (run_at (proxy_of c m) qs fresh i q d b N) as (s' & E). rewrite E in R. injection R as RE RA. subst ev.
    assert (PO : forall t h, pass_on same conv (proxy_of c m) b = Ok a -> forall ev, In (PSend t h) ev ->
      match a with PFrom n h => exists h0, b = PResp n h0 /\ ruled false m h0 h /\ exists t h', In (PSend t h') ev | POwn n => (n = 200 /\ pq_connect q = true \/ n = 407) /\ forall t h', ~ In (PSend t h') ev end).
    { intros t h P ev I. unfold pass_on in P. destruct b as [| |n h0]; try discriminate P. injection P as <-. exists h0. split; [reflexivity|]. split; [apply ruled_response|]. eauto. }
    unfold p_operate in *. destruct (k_conn s').
    - cbn [fst snd] in *. eapply PO; [exact RA|left; reflexivity].
    - destruct (target _ _) as [t'|]; [|discriminate RA]. destruct d; cbn [negb] in *; [|discriminate RA].
      destruct (h_auth (pc_auth (proxy_of c m))) as [[u p]|].
      + destruct (match auth_of same _ with Some v => check_basic_auth u p v | None => Ok false end) as [[]| |]; try discriminate RA.
        * destruct (pq_connect q); cbn [fst snd] in *; [injection RA as <-; split; [auto|intros t h' [X|[X|[]]]; discriminate X]|].
          eapply PO; [exact RA|right; left; reflexivity].
        * cbn [fst snd] in *. injection RA as <-. split; [auto|]. intros t h' [X|[]]. discriminate X.
      + destruct (pq_connect q); cbn [fst snd] in *; [injection RA as <-; split; [auto|intros t h' [X|[X|[]]]; discriminate X]|].
        eapply PO; [exact RA|right; left; reflexivity].
  Qed.

  (* the rest is the proxy without rules, for the requests as the rules make them *)
  Definition credentials (h : headers) : option text :=
    hd_error (map snd (filter (fun kv => same (txt "Proxy-Authorization") (fst kv)) h)).
  Lemma credentials_of h : credentials h = auth_of same h.
  Proof.
    unfold credentials, auth_of, auth_name. induction h as [|[k v] h IH]; [reflexivity|]. cbn [filter find fst].
    destruct (same (txt "Proxy-Authorization") k); [reflexivity|exact IH].
  Qed.
  Definition seen (c : pcfg) (x : preq * bool * pback) : hreq * bool * option bool :=
    let '(q, d, b) := x in let h := deal_request same conv c (pq_headers q) in
    (HReq (pq_connect q) (target (pq_url q) h) (credentials h), d, match b with PNone => None | PErr => Some false | PResp _ _ => Some true end).
  Definition plain_ev (e : pev) : hev :=
    match e with PDial t => HDial t | PSend t h => HSend t (credentials h) | PTunnel t => HTunnel t end.
  Definition plain_ans (a : res unit pans) : res unit hans :=
    match a with Ok (POwn n) => Ok (HStatus n) | Ok (PFrom _ _) => Ok HBackend | Err _ => Err tt | Panic => Panic end.
  Lemma auth_removed h : auth_of same (h_remove same auth_name h) = None.
  Proof.
    unfold auth_of, h_remove. induction h as [|[k v] h IH]; [reflexivity|]. cbn [filter fst]. destruct (same auth_name k) eqn:E; cbn [negb]; [exact IH|].
    cbn [find fst]. rewrite E. exact IH.
  Qed.
  Lemma operate_seen c s q d b : let '(q', d', r') := seen c (q, d, b) in
    h_operate (pc_auth c) s q' d' r' =
      (fst (fst (operate c s q d b)), map plain_ev (snd (fst (operate c s q d b))), plain_ans (snd (operate c s q d b))).
  Proof.
    cbn [seen]. rewrite !credentials_of. unfold h_operate, p_operate. destruct (k_conn s).
    - cbn [q_auth fst snd map plain_ev]. rewrite ?credentials_of. destruct b; reflexivity.
    - cbn [q_host q_auth q_connect]. destruct (target (pq_url q) _) as [t|]; [|reflexivity]. destruct d; cbn [negb]; [|reflexivity].
      destruct (h_auth (pc_auth c)) as [[u p]|].
      + destruct (match auth_of same _ with Some v => check_basic_auth u p v | None => Ok false end) as [[]| |]; try reflexivity.
        destruct (pq_connect q); [reflexivity|]. cbn [fst snd map plain_ev]. rewrite !credentials_of, ?auth_removed. destruct b; reflexivity.
      + destruct (pq_connect q); [reflexivity|]. cbn [fst snd map plain_ev]. rewrite ?credentials_of. destruct b; reflexivity.
  Qed.
  Lemma run_seen c qs : forall s, h_run (pc_auth c) s (map (seen c) qs) =
    (fst (run c s qs), map (fun x => (map plain_ev (fst x), plain_ans (snd x))) (snd (run c s qs))).
  Proof.
    induction qs as [|[[q d] b] qs IH]; intros s; [reflexivity|]. cbn [map]. assert (O := operate_seen c s q d b).
    destruct (seen c (q, d, b)) as [[q' d'] r']. cbn [h_run p_run]. rewrite O.
    destruct (operate c s q d b) as [[s1 ev] a]. cbn [fst snd]. rewrite IH. destruct (run c s1 qs) as [s2 l]. reflexivity.
  Qed.
  (* the credentials looked at, and the target chosen, are those of the request as the rules
     make it: the proxy with rules does to the requests of a client exactly what the proxy
     without rules does to the rewritten requests *)
  Theorem C161_rules_first : forall c m qs,
    h_run c fresh (map (seen (proxy_of c m)) qs) =
      (fst (run (proxy_of c m) fresh qs), map (fun x => (map plain_ev (fst x), plain_ans (snd x))) (snd (run (proxy_of c m) fresh qs))).
  Proof. intros c m qs. exact (run_seen (proxy_of c m) qs fresh). Qed.
End Props.

(* names compared without regard to case, as in webparse *)
Definition ci (a b : text) : bool := leqb (map lower a) (map lower b).
Definition by_host (url : text) (h : headers) : option text :=
  match url with [] => match find (fun kv => ci (txt "Host") (fst kv)) h with Some (_, v) => Some v | None => None end | _ => Some url end.
Definition ex_map : mapping :=
  Mapping (txt "p") (txt "proxy") None []
    [HRule HAdd true (txt "X-By") (txt "tunnel"); HRule HDel true (txt "Cookie") []; HRule HDefault false (txt "X-Cache") (txt "no")].
Example C161_example :
  let c := HCfg None None in let q := PReq false (txt "a:80") [(txt "cookie", txt "s"); (txt "Accept", txt "x")] in
  snd (p_run ci (fun x => x) by_host (proxy_of c (Some ex_map)) fresh [(q, true, PResp 200 [(txt "A", txt "1")]); (q, true, PResp 404 [(txt "x-cache", txt "hit")])]) =
    [([PDial (txt "a:80"); PSend (txt "a:80") [(txt "Accept", txt "x"); (txt "X-By", txt "tunnel")]], Ok (PFrom 200 [(txt "A", txt "1"); (txt "X-Cache", txt "no")]));
     ([PSend (txt "a:80") [(txt "Accept", txt "x"); (txt "X-By", txt "tunnel")]], Ok (PFrom 404 [(txt "x-cache", txt "hit")]))].
Proof. vm_compute. reflexivity. Qed.
(* a rule may supply the credentials the proxy asks for *)
Example C161_credentials :
  let m := Mapping (txt "p") (txt "proxy") None [] [HRule HDefault true (txt "Proxy-Authorization") (basic (txt "u") (txt "p"))] in
  snd (p_run ci (fun x => x) by_host (proxy_of (HCfg (Some (txt "u")) (Some (txt "p"))) (Some m)) fresh [(PReq false (txt "a:80") [], true, PResp 200 [])]) =
    [([PDial (txt "a:80"); PSend (txt "a:80") []], Ok (PFrom 200 []))].
Proof. vm_compute. reflexivity. Qed.
Print Assumptions C161_requests.
Print Assumptions C161_responses.
Print Assumptions C161_rules_first.
