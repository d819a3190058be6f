(* C98 - C104: listening, and which server a connection is given to. *)
From Coq Require Import String.
From Verif Require Import Base Text TextOps AddrModel ConfModel RouteModel BindModel BindSpec BindProofs SqModel SqSpec SqProofs.
Open Scope N_scope.

Definition lo : ipaddr := V4 2130706433.  (* 127.0.0.1 *)
Definition lan : ipaddr := V4 167772161.  (* 10.0.0.1 *)

(* C98: when the http section starts, exactly the addresses some server lists are
   listened on, each once; and it starts when every address can be bound, every
   configured certificate loads and every server with TLS addresses has one. *)
Theorem C98_listening : forall can_bind ss ls, http_bind can_bind ss = Ok ls ->
  NoDup (map fst ls) /\ (forall a, In a (map fst ls) <-> exists s, In s ss /\ lists (b_srv s) a).
Proof.
  intros can ss ls E. destruct (http_bind_ok can ss ls E) as (A & _ & B). split; [exact A|].
  intros a. rewrite B, in_map_iff. split.
  - intros ([b t] & <- & I). apply listed_in in I as (s & Hs & I). exists s. split; [exact Hs|]. destruct t; [right|left]; exact I.
  - intros (s & Hs & [I|I]); [exists (a, false)|exists (a, true)]; (split; [reflexivity|]); apply listed_in; exists s; (split; [exact Hs|exact I]).
Qed.
Theorem C98_starts : forall can_bind ss,
  (forall s a, In s ss -> lists (b_srv s) a -> can_bind a = true) ->
  (forall s, In s ss -> b_cert s <> Some false) ->
  (forall s, In s ss -> s_bind_ssl (b_srv s) <> [] -> b_cert s = Some true) ->
  exists ls, http_bind can_bind ss = Ok ls.
Proof. exact http_bind_total. Qed.
(* and only then: if it starts, every listed address could be bound, no certificate failed
   to load, and a server whose TLS address nobody lists before it has a certificate *)
Theorem C98_needs : forall can_bind ss ls, http_bind can_bind ss = Ok ls ->
  (forall s a, In s ss -> lists (b_srv s) a -> can_bind a = true) /\
  (forall s, In s ss -> b_cert s <> Some false) /\
  (forall pre s post a, ss = pre ++ s :: post -> In a (s_bind_ssl (b_srv s)) -> ~ In a (s_bind (b_srv s)) ->
     (forall s', In s' pre -> ~ lists (b_srv s') a) -> b_cert s = Some true).
Proof.
  intros can ss ls E.
  assert (AD : forall ssl tls l done acc d a, bind_addrs can ssl tls done acc l = Ok (d, a) ->
    (forall x, In x l -> In x done \/ can x = true /\ (tls = true -> ssl = true)) /\ (forall x, In x d -> In x done \/ In x l /\ can x = true)).
  { clear. intros ssl tls. induction l as [|b l IH]; intros done acc d a E; cbn [bind_addrs] in E.
    - injection E as <- <-. split; [intros x []|auto].
    - destruct (mem_sa b done) eqn:M.
      + destruct (IH _ _ _ _ E) as (A & B). split.
        * intros x [<-|I]; [left; apply mem_sa_ok; exact M|apply A; exact I].
        * intros x I. destruct (B x I) as [J|(J & K)]; [left; exact J|right; split; [right; exact J|exact K]].
      + destruct (tls && negb ssl) eqn:T; [discriminate|]. destruct (can b) eqn:C; [|discriminate].
        destruct (IH _ _ _ _ E) as (A & B). assert (TS : tls = true -> ssl = true) by (intros ->; destruct ssl; [reflexivity|discriminate]). split.
        * intros x [<-|I]; [right; auto|]. destruct (A x I) as [[<-|J]|J]; auto.
        * intros x I. destruct (B x I) as [[<-|J]|(J & K)]; [right; split; [left; reflexivity|exact C]|left; exact J|right; split; [right; exact J|exact K]]. }
  assert (BS : forall ss done acc ls, bind_servers can done acc ss = Ok ls ->
    (forall s x, In s ss -> lists (b_srv s) x -> In x done \/ can x = true) /\
    (forall s, In s ss -> b_cert s <> Some false) /\
    (forall pre s post x, ss = pre ++ s :: post -> In x (s_bind_ssl (b_srv s)) -> ~ In x (s_bind (b_srv s)) -> ~ In x done ->
       (forall s', In s' pre -> ~ lists (b_srv s') x) -> b_cert s = Some true)).
  { clear E ss ls. induction ss as [|s ss IH]; intros done acc ls E.
    - split; [intros s x []|]. split; [intros s []|]. intros [|] s post x E'; discriminate.
    - cbn [bind_servers] in E. assert (NF : b_cert s <> Some false) by (intro X; rewrite X in E; discriminate).
      assert (E' : (do (d1, a1) <- bind_addrs can (is_ssl s) false done acc (s_bind (b_srv s)) ; do (d2, a2) <- bind_addrs can (is_ssl s) true d1 a1 (s_bind_ssl (b_srv s)) ; bind_servers can d2 a2 ss) = Ok ls)
        by (destruct (b_cert s) as [[|]|]; [exact E|discriminate|exact E]).
      clear E. destruct (bind_addrs can (is_ssl s) false done acc _) as [[d1 a1]| |] eqn:E1; try discriminate. cbn [rbind] in E'.
      destruct (bind_addrs can (is_ssl s) true d1 a1 _) as [[d2 a2]| |] eqn:E2; try discriminate. cbn [rbind] in E'.
      destruct (AD _ _ _ _ _ _ _ E1) as (A1 & B1), (AD _ _ _ _ _ _ _ E2) as (A2 & B2). destruct (IH _ _ _ E') as (H1 & H2 & H3). split; [|split].
      + assert (D1 : forall x, In x d1 -> In x done \/ can x = true) by (intros x I; destruct (B1 x I) as [J|(_ & K)]; auto).
        assert (D2 : forall x, In x d2 -> In x done \/ can x = true) by (intros x I; destruct (B2 x I) as [J|(_ & K)]; auto).
        intros s' x [<-|I] Lx.
        * destruct Lx as [J|J]; [destruct (A1 x J) as [K|(K & _)]; auto|destruct (A2 x J) as [K|(K & _)]; auto].
        * destruct (H1 s' x I Lx) as [J|J]; auto.
      + intros s' [<-|I]; [exact NF|apply H2; exact I].
      + intros [|q pre] s' post x Eq I NI ND P; cbn [app] in Eq; injection Eq as <- Eq.
        * assert (N1 : ~ In x d1) by (intro J; destruct (B1 x J) as [K|(K & _)]; auto). destruct (A2 x I) as [K|(_ & K)]; [contradiction|]. specialize (K eq_refl). unfold is_ssl in K. destruct (b_cert s) as [[|]|]; [reflexivity|discriminate|discriminate].
        * assert (NL : ~ lists (b_srv s) x) by (apply P; left; reflexivity). eapply H3; [exact Eq|exact I|exact NI| |intros s'' J; apply P; right; exact J].
          intro J. destruct (B2 x J) as [K|(K & _)]; [|apply NL; right; exact K]. destruct (B1 x K) as [K'|(K' & _)]; [contradiction|apply NL; left; exact K']. }
  destruct (BS ss [] [] ls E) as (H1 & H2 & H3). split; [|split].
  - intros s a I L. destruct (H1 s a I L) as [[]|K]. exact K.
  - exact H2.
  - intros pre s post a Eq I NI P. eapply H3; eauto.
Qed.
Print Assumptions C98_listening.
Print Assumptions C98_starts.
Print Assumptions C98_needs.

(* C99, full statement: an address some server lists under bind_ssl is served over
   TLS.  Whether a listener speaks TLS is decided by the first entry of the
   configuration for its address, so this holds of addresses no server lists as
   plain ... *)
Theorem C99_tls : forall can_bind ss ls a t, http_bind can_bind ss = Ok ls ->
  (In (a, t) ls <-> first_by fst (listed ss) (a, t)).
Proof. intros can ss ls a t E. destruct (http_bind_ok can ss ls E) as (_ & A & _). apply A. Qed.
Theorem C99_tls_partial : forall can_bind ss ls s a, http_bind can_bind ss = Ok ls ->
  In s ss -> In a (s_bind_ssl (b_srv s)) -> (forall s', In s' ss -> ~ In a (s_bind (b_srv s'))) ->
  In (a, true) ls /\ ~ In (a, false) ls.
Proof.
  intros can ss ls s a E Hs Ha Hn. destruct (C98_listening can ss ls E) as [_ B].
  assert (P : ~ In (a, false) ls).
  { intros I. apply (C99_tls can ss ls a false E) in I. apply first_in, listed_in in I as (s' & Hs' & I). exact (Hn s' Hs' I). }
  split; [|exact P]. assert (I : In a (map fst ls)) by (apply B; exists s; split; [exact Hs|right; exact Ha]).
  apply in_map_iff in I as ([b [|]] & Eb & I); cbn in Eb; subst b; [exact I|contradiction].
Qed.
(* ... and is false of every address that an earlier entry lists as plain: the
   service starts, and answers plain HTTP there. *)
Theorem C99_plain_refuted : forall can_bind ss ls a, http_bind can_bind ss = Ok ls ->
  first_by fst (listed ss) (a, false) -> (exists s, In s ss /\ In a (s_bind_ssl (b_srv s))) ->
  In (a, false) ls /\ ~ In (a, true) ls.
Proof.
  intros can ss ls a E F _. apply (C99_tls can ss ls a false E) in F. split; [exact F|]. intros I.
  destruct (C98_listening can ss ls E) as [Nd _]. clear -F I Nd. induction ls as [|[b t] ls IH]; [contradiction|].
  cbn [map fst] in Nd. inversion Nd as [|? ? N1 N2]; subst. destruct F as [F|F], I as [I|I].
  - congruence.
  - injection F as -> ->. apply N1. apply in_map_iff. exists (a, true). split; [reflexivity|exact I].
  - injection I as -> ->. apply N1. apply in_map_iff. exists (a, false). split; [reflexivity|exact F].
  - exact (IH F I N2).
Qed.
Print Assumptions C99_tls.
Print Assumptions C99_tls_partial.
Print Assumptions C99_plain_refuted.

Definition web : bserver := BServer (Server (txt "web") [SAddr lo 80; SAddr lo 443] [] []) None.
Definition shop : bserver := BServer (Server (txt "shop") [] [SAddr lo 443; SAddr lan 443] []) (Some true).
Example C98_C99_demo :
  http_bind (fun _ => true) [web; shop] = Ok [(SAddr lo 80, false); (SAddr lo 443, false); (SAddr lan 443, true)] /\
  first_by fst (listed [web; shop]) (SAddr lo 443, false) /\ In (SAddr lo 443) (s_bind_ssl (b_srv shop)) /\
  (forall s', In s' [web; shop] -> ~ In (SAddr lan 443) (s_bind (b_srv s'))) /\
  http_bind (fun _ => true) [web; BServer (b_srv shop) None] = Err tt.
Proof.
  split; [vm_compute; reflexivity|]. split; [exists [(SAddr lo 80, false)], [(SAddr lo 443, true); (SAddr lan 443, true)]; split; [reflexivity|]|].
  { intros [H|[]]. discriminate. }
  split; [left; reflexivity|]. split; [|vm_compute; reflexivity].
  intros s' [<-|[<-|[]]] H; cbn in H; intuition discriminate.
Qed.

(* C100, full statement: a connection is answered only by servers that list the
   address it was accepted on.  They list an address with its port ... *)
Theorem C100_port_partial : forall ss l sni host s, answering ss l sni host = Some s ->
  In s (map b_srv ss) /\ has_port s (sa_port (fst l)).
Proof.
  intros ss [a t] sni host s E. unfold answering in E. cbn [fst snd] in *. apply pick_in in E.
  apply local_servers_ok. destruct t; [|exact E]. unfold tls_servers in E. destruct sni as [n|]; [|exact E].
  destruct (find _ _) as [x|] eqn:F; [|exact E]. destruct E as [<-|[]]. apply find_some in F as [F _]. exact F.
Qed.
(* ... but not necessarily the address: a server that listens elsewhere on the same
   port answers every request that names it. *)
Theorem C100_elsewhere_refuted : forall ss a sni s pre post,
  map b_srv ss = pre ++ s :: post -> has_port s (sa_port a) -> ~ lists s a ->
  s_up_name s <> [] -> Forall (fun x => s_up_name x <> s_up_name s) pre ->
  answering ss (a, false) sni (s_up_name s) = Some s.
Proof.
  intros ss a sni s pre post E Hp _ Hn Hpre. unfold answering. cbn [fst snd]. unfold local_servers. rewrite E, filter_app. cbn [filter].
  assert (P : list_contains (s_bind s) (sa_port a) || list_contains (s_bind_ssl s) (sa_port a) = true).
  { assert (I : In s (local_servers [s] (sa_port a))) by (apply local_servers_ok; split; [left; reflexivity|exact Hp]).
    unfold local_servers in I. apply filter_In in I as [_ I]. exact I. }
  rewrite P. eapply pick_named; [reflexivity|reflexivity| |exact Hn].
  apply Forall_forall. intros x Hx. apply filter_In in Hx as [Hx _]. rewrite Forall_forall in Hpre. exact (Hpre x Hx).
Qed.
Print Assumptions C100_port_partial.
Print Assumptions C100_elsewhere_refuted.

Definition pub : bserver := BServer (Server (txt "pub.com") [SAddr lan 80] [] []) None.
Definition admin : bserver := BServer (Server (txt "admin.local") [SAddr lo 80] [] []) None.
Example C100_demo :
  answering [pub; admin] (SAddr lan 80, false) None (txt "admin.local") = Some (b_srv admin) /\ ~ lists (b_srv admin) (SAddr lan 80) /\
  has_port (b_srv admin) 80.
Proof.
  split; [vm_compute; reflexivity|]. split.
  - intros [[H|[]]|[]]. discriminate.
  - exists (SAddr lo 80). split; [left; left; reflexivity|reflexivity].
Qed.

(* C101: on a TLS connection whose client named a server of that port, the first such
   server answers every request, whatever Host it carries. *)
Theorem C101_sni : forall ss a n host s pre post,
  map b_srv ss = pre ++ s :: post -> has_port s (sa_port a) -> s_up_name s = n ->
  Forall (fun x => has_port x (sa_port a) -> s_up_name x <> n) pre ->
  answering ss (a, true) (Some n) host = Some s.
Proof.
  intros ss a n host s pre post E Hp Hn Hpre. unfold answering. cbn [fst snd tls_servers].
  assert (F : find (fun s => leqb (s_up_name s) n) (local_servers (map b_srv ss) (sa_port a)) = Some s).
  { unfold local_servers. rewrite E. clear E. induction Hpre as [|x pre Hx _ IH]; cbn [app filter].
    - assert (I : In s (local_servers [s] (sa_port a))) by (apply local_servers_ok; split; [left; reflexivity|exact Hp]).
      unfold local_servers in I. apply filter_In in I as [_ I]. rewrite I. cbn [find].
      rewrite (proj2 (leqb_ok (s_up_name s) n) Hn). reflexivity.
    - destruct (list_contains (s_bind x) (sa_port a) || list_contains (s_bind_ssl x) (sa_port a)) eqn:C; [|exact IH].
      cbn [find]. destruct (leqb (s_up_name x) n) eqn:L; [|exact IH]. exfalso. apply leqb_ok in L. refine (Hx _ L).
      apply (local_servers_ok [x] (sa_port a) x). unfold local_servers. cbn [filter]. rewrite C. left. reflexivity. }
  rewrite F. reflexivity.
Qed.
Print Assumptions C101_sni.
Example C101_demo :
  let s2 := BServer (Server (txt "b.com") [] [SAddr lan 443] []) (Some true) in
  answering [shop; s2] (SAddr lan 443, true) (Some (txt "b.com")) (txt "shop") = Some (b_srv s2) /\
  has_port (b_srv s2) 443 /\ Forall (fun x => has_port x 443 -> s_up_name x <> txt "b.com") [b_srv shop].
Proof.
  split; [vm_compute; reflexivity|]. split; [exists (SAddr lan 443); split; [right; left; reflexivity|reflexivity]|].
  constructor; [discriminate|constructor].
Qed.

(* C102, full statement: every address of the stream section is listened on, in its
   mode.  Only the first entry of each port is, so this holds when no two entries
   have the same port ... *)
Theorem C102_listening : forall can_bind ss ls x, stream_bind can_bind ss = Ok ls ->
  (In x ls <-> first_by port_of (slisted 0 ss) x).
Proof. intros can ss ls x E. destruct (stream_bind_ok can ss ls E) as (_ & A & _). apply A. Qed.
(* the section starts exactly when all these can be opened *)
Theorem C102_starts : forall can_bind ss, (exists ls, stream_bind can_bind ss = Ok ls) <->
  (forall a udp i, first_by port_of (slisted 0 ss) (a, udp, i) -> can_bind udp a = true).
Proof. exact stream_bind_starts. Qed.
Theorem C102_listening_partial : forall can_bind ss ls x, stream_bind can_bind ss = Ok ls ->
  NoDup (map port_of (slisted 0 ss)) -> In x (slisted 0 ss) -> In x ls.
Proof.
  intros can ss ls x E Nd I. apply (C102_listening can ss ls x E). apply in_split in I as (a & b & Eq). exists a, b.
  split; [exact Eq|]. rewrite Eq, map_app in Nd. cbn [map] in Nd. apply NoDup_remove_2 in Nd. intros H. apply Nd, in_app_iff. left. exact H.
Qed.
(* ... and fails whenever they do, for another IP address as well as for udp next to
   tcp: the later one is not listened on, without an error. *)
Theorem C102_port_taken_refuted : forall can_bind ss ls x pre post, stream_bind can_bind ss = Ok ls ->
  slisted 0 ss = pre ++ x :: post -> In (port_of x) (map port_of pre) -> ~ In x pre -> ~ In x ls.
Proof.
  intros can ss ls x pre post E Eq I Nx H. apply (C102_listening can ss ls x E) in H as (a & b & Eq2 & F).
  rewrite Eq in Eq2. apply app_eq_app in Eq2 as (l & [[E1 E2]|[E1 E2]]).
  - destruct l as [|y l].
    + rewrite app_nil_r in E1. subst. contradiction.
    + cbn in E2. injection E2 as -> E2. apply Nx. rewrite E1. apply in_app_iff. right. left. reflexivity.
  - apply F. rewrite E1, map_app. apply in_app_iff. left. exact I.
Qed.
Print Assumptions C102_listening.
Print Assumptions C102_starts.
Print Assumptions C102_listening_partial.
Print Assumptions C102_port_taken_refuted.

(* C103: a TCP stream connection goes to the backends of the server whose entry
   opened the listener. *)
Theorem C103_backend : forall can_bind ss ls a udp i, stream_bind can_bind ss = Ok ls -> In (a, udp, i) ls ->
  stream_server 0 ss (sa_port a) = Some i /\
  (exists s, nth_error ss i = Some s /\ In a (ss_bind s) /\ (udp = true <-> ss_mode s = txt "udp")).
Proof.
  intros can ss ls a udp i E I. apply (C102_listening can ss ls _ E) in I. split.
  - exact (stream_server_first ss 0 _ I).
  - apply first_in in I. assert (G : forall k, In (a, udp, i) (slisted k ss) ->
      exists j s, i = (k + j)%nat /\ nth_error ss j = Some s /\ In a (ss_bind s) /\ is_udp s = udp).
    { clear. induction ss as [|s ss IH]; intros k H; [contradiction|]. cbn [slisted] in H. apply in_app_iff in H as [H|H].
      - apply in_map_iff in H as (x & Ex & H). injection Ex as Ea Eu Ei. subst x i. exists 0%nat, s. repeat split; [lia|exact H|exact Eu].
      - destruct (IH _ H) as (j & s' & A & B). exists (S j), s'. split; [lia|exact B]. }
    destruct (G 0%nat I) as (j & s & -> & B1 & B2 & B3). exists s. split; [exact B1|]. split; [exact B2|]. unfold is_udp in B3. rewrite <- B3. apply leqb_ok.
Qed.
Print Assumptions C103_backend.
Definition dns_tcp := SServer [SAddr lan 53] (txt "tcp").
Definition dns_udp := SServer [SAddr lan 53; SAddr lan 54] (txt "udp").
Example C102_C103_demo :
  stream_bind (fun _ _ => true) [dns_tcp; dns_udp] = Ok [(SAddr lan 53, false, 0%nat); (SAddr lan 54, true, 1%nat)] /\
  slisted 0 [dns_tcp; dns_udp] = [(SAddr lan 53, false, 0%nat)] ++ (SAddr lan 53, true, 1%nat) :: [(SAddr lan 54, true, 1%nat)] /\
  NoDup (map port_of (slisted 0 [SServer [SAddr lan 53] (txt "tcp"); SServer [SAddr lo 54] (txt "udp")])).
Proof.
  split; [vm_compute; reflexivity|]. split; [reflexivity|]. vm_compute. constructor; [intros [H|[]]; discriminate|]. constructor; [intros []|constructor].
Qed.

(* C104, full statement: the connections of the stream section are relayed
   independently of each other.  A connection whose turn it is is relayed in full ... *)
Theorem C104_relay_partial : forall es1 c es2, holder (fst (sq_run sq_init es1)) = Some c -> ~ In (SFinish c) es2 ->
  passed_for c (snd (sq_run (fst (sq_run sq_init es1)) es2)) = sent_by c es2.
Proof. intros. apply holder_passes; assumption. Qed.
(* ... but they take turns: backends are contacted in the order of acceptance, each
   one only after all earlier connections have ended ... *)
Theorem C104_turns : forall es,
  contacted (snd (sq_run sq_init es)) = firstn (S (length (dropped (snd (sq_run sq_init es))))) (accepted es).
Proof. exact contacted_firstn. Qed.
(* ... so that from the moment a first connection is relayed and for as long as it
   stays open nothing whatsoever happens for any other connection. *)
Theorem C104_blocked_refuted : forall c es, ~ In (SFinish c) es ->
  Forall (fun x => for_conn x = c) (snd (sq_run sq_init (SAccept c :: es))).
Proof.
  intros c es H. rewrite run_cons. cbn [snd]. change (snd (sq_step sq_init (SAccept c))) with [SConnect c].
  constructor; [reflexivity|]. apply blocked; [reflexivity|exact H].
Qed.
Print Assumptions C104_relay_partial.
Print Assumptions C104_turns.
Print Assumptions C104_blocked_refuted.
Example C104_demo :
  snd (sq_run sq_init [SAccept 1; SBytes 1 [7]; SAccept 2; SBytes 2 [8]; SFinish 1; SBytes 2 [9]]) =
    [SConnect 1; SPass 1 [7]; SDrop 1; SConnect 2; SPass 2 [9]] /\
  holder (fst (sq_run sq_init [SAccept 1])) = Some 1.
Proof. split; reflexivity. Qed.
