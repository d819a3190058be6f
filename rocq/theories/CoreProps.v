(* C107-C112: the tunnels and visitors of one server, its accept loop, its TLS and its
   ports. *)
From Coq Require Import Lia.
From Coq Require Import String.
From Verif Require Import Base Text TextOps AddrModel ProtModel IdModel IdProofs CoreModel CoreSpec CoreProofs.
Open Scope N_scope.

Section Props.
  Context (cf : ccfg).

  (* C107: a visitor is given to the tunnel that has been connected for longest, as the
     next stream of that tunnel; it is turned away only when no tunnel is connected; and
     the streams of one tunnel have different numbers *)
  Theorem C107_visitor es s tr1 k c j id tr2 : corun cf core0 es = (s, tr1 ++ XVisitor k c j id :: tr2) -> oldest_alive tr1 j.
  Proof. intro H. exact (proj1 (visitor_given cf _ _ _ _ _ _ _ _ H)). Qed.
  Theorem C107_refused es s tr1 k c tr2 : visitor_port k -> corun cf core0 es = (s, tr1 ++ XDrop k c :: tr2) -> forall j, ~ alive tr1 j.
  Proof. intros K. apply visitor_dropped. destruct K as [<-|[<-|[<-|[<-|[]]]]]; reflexivity. Qed.
  Theorem C107_order es s tr : corun cf core0 es = (s, tr) -> exists n, tunnels tr = seq 0 n.
  Proof. intro H. assert (V := inv_run cf es _ _ inv0). rewrite H in V. exists (co_made s). apply (iv_tun _ _ V). Qed.
  Theorem C107_numbers es s tr j : corun cf core0 es = (s, tr) -> N.of_nat (length (numbers j tr)) <= 2 ^ 31 ->
    NoDup (numbers j tr) /\ forall id, In id (numbers j tr) -> id mod 2 = 0.
  Proof.
    intros H L. rewrite (all_numbers cf es s tr H j). split; [apply allocate_NoDup; [reflexivity|exact L]|].
    intros id I. apply allocate_parity in I; [rewrite I; reflexivity|reflexivity].
  Qed.
  (* C108, full statement: a visitor reaches the tunnel client whose mapping it asks for.
     False of the code: while an earlier client is connected, no visitor is ever given to
     a later one, whatever the two have registered. *)
  Theorem C108_later_client_refuted es s tr i j c : corun cf core0 es = (s, tr) -> In (XTunnel i c) tr -> ~ In (XOver i) tr -> (i < j)%nat ->
    forall k v id, ~ In (XVisitor k v j id) tr.
  Proof.
    intros H T O L k v id I. apply in_split in I. destruct I as (tr1 & tr2 & ->). destruct (C107_visitor _ _ _ _ _ _ _ _ H) as ((OP & _) & M).
    (* i was opened before j, and so before the visitor *)
    assert (TT : exists n, tunnels (tr1 ++ XVisitor k v j id :: tr2) = seq 0 n) by (eapply C107_order; exact H). destruct TT as (n & TT).
    rewrite tunnels_app in TT. cbn [tunnels flat_map app] in TT. fold (tunnels tr2) in TT.
    assert (P : tunnels tr1 = seq 0 (length (tunnels tr1))).
    { assert (Q := f_equal (firstn (length (tunnels tr1))) TT). rewrite firstn_app, Nat.sub_diag, firstn_all in Q. cbn [firstn] in Q. rewrite app_nil_r in Q. rewrite Q at 1.
      assert (LE : (length (tunnels tr1) <= n)%nat) by (assert (LL := f_equal (@length nat) TT); rewrite app_length, seq_length in LL; lia).
      clear -LE. replace n with (length (tunnels tr1) + (n - length (tunnels tr1)))%nat by lia. rewrite seq_app, firstn_app, seq_length, Nat.sub_diag. cbn [firstn]. rewrite app_nil_r. apply firstn_all2. rewrite seq_length. lia. }
    assert (JI : In j (tunnels tr1)) by (apply in_tunnels; exact OP). rewrite P in JI. apply in_seq in JI.
    assert (II : In i (tunnels tr1)) by (rewrite P; apply in_seq; lia).
    assert (LE : (j <= i)%nat).
    { apply M. split; [apply in_tunnels; exact II|]. intro Q. apply O. apply in_app_iff. now left. }
    lia.
  Qed.
  (* C108, what is left: with one client connected, and no other before it still there,
     its visitors are given to it *)
  Theorem C108_only_client_partial es s tr1 k c tr2 o i : corun cf core0 es = (s, tr1 ++ o :: tr2) -> alive tr1 i -> (forall j, alive tr1 j -> j = i) -> visitor_port k ->
    (o = XDrop k c \/ exists j id, o = XVisitor k c j id) -> exists id, o = XVisitor k c i id.
  Proof.
    intros H A U K [->|(j & id & ->)].
    - exfalso. exact (C107_refused _ _ _ _ _ _ K H i A).
    - destruct (C107_visitor _ _ _ _ _ _ _ _ H) as (B & _). rewrite (U j B). eauto.
  Qed.

  (* C109: connections of one port are settled in the order they came, none twice, none
     left out *)
  Theorem C109_order es s tr k : corun cf core0 es = (s, tr) -> exists rest, arrived k es = settled k tr ++ rest.
  Proof. intro H. assert (Q := run_kept cf k es core0). rewrite H in Q. cbn in Q. eexists. exact Q. Qed.
  (* C109, full statement: as long as the loop has not returned, every connection can be
     accepted at once and a stop is obeyed at once.  Proved without TLS on the tunnel
     port, an upper server and a tunnel client. *)
  Theorem C109_accepts_partial es s tr k c rest : cf_tls cf = false -> cf_up cf = false -> cf_tunnel cf = false ->
    corun cf core0 es = (s, tr) -> ~ In XReturn tr -> arrived k es = settled k tr ++ c :: rest ->
    settled k (tr ++ snd (costep cf s (CAccept k))) = settled k tr ++ [c].
  Proof.
    intros T U K H N A. assert (P := free_run cf es core0 T U K eq_refl). rewrite H in P. specialize (P N). cbn [fst] in P.
    assert (Q := run_kept cf k es core0). rewrite H in Q. cbn [kept inside outside core0 co_phase co_wait flat_map app fst snd] in Q. rewrite A in Q. apply app_inv_head in Q.
    assert (IN : inside k s = []) by (unfold inside; rewrite P; reflexivity). unfold kept in Q. rewrite IN in Q. cbn [app] in Q.
    rewrite settled_app. f_equal. cbn [costep]. rewrite P.
    destruct (take k (co_wait s)) as [[c' w]|] eqn:E.
    - destruct (take_outside _ _ _ _ E) as (B & _). unfold outside in Q. rewrite B in Q. injection Q as <- _.
      assert (V : forall k, settled k (snd (deal_visitor cf k c (with_wait w s))) = [c]) by (intro k'; unfold deal_visitor, calc_next_id; destruct (filter _ _) as [|[j n] l]; cbn [snd settled flat_map]; rewrite eqb_refl_k; reflexivity).
      destruct k; try apply V; try reflexivity.
      + unfold deal_client. rewrite K. reflexivity.
      + rewrite T. unfold deal_center. rewrite U. reflexivity.
    - exfalso. unfold outside in Q. revert E Q. generalize (co_wait s). induction l as [|[k0 c0] l IH]; cbn [take flat_map fst snd]; [discriminate|]. destruct (lkind_eqb k0 k); [discriminate|]. destruct (take k l) as [[x r]|]; [discriminate|]. intros _ Q. exact (IH eq_refl Q).
  Qed.
  Theorem C109_stops_partial es s tr : cf_tls cf = false -> cf_up cf = false -> cf_tunnel cf = false ->
    corun cf core0 es = (s, tr) -> ~ In XReturn tr -> In CStop es -> snd (costep cf s CSeeStop) = [XReturn].
  Proof.
    intros T U K H N A. assert (P := free_run cf es core0 T U K eq_refl). rewrite H in P. specialize (P N). cbn [fst] in P.
    assert (Q := stop_kept cf es core0 (or_intror A)). rewrite H in Q. cbn [fst] in Q. cbn [costep]. rewrite P, Q. reflexivity.
  Qed.
  (* For every configuration: the loop returns only if it was told to stop. *)
  Theorem C109_only_told es s tr : corun cf core0 es = (s, tr) -> In XReturn tr -> In CStop es.
  Proof.
    assert (M : forall s e, co_stop s = false -> e <> CStop -> co_stop (fst (costep cf s e)) = false /\ ~ In XReturn (snd (costep cf s e))).
    { clear. intros s e H NE. destruct e as [k c|k|ok|ok| |j| |]; cbn [costep]; try (exfalso; now apply NE); try (split; [exact H|intros []]; fail).
      - destruct (co_phase s); try (split; [exact H|intros []]; fail). destruct (take k (co_wait s)) as [[c w]|]; [|split; [exact H|intros []]].
        assert (V : forall k c s, co_stop s = false -> co_stop (fst (deal_visitor cf k c s)) = false /\ ~ In XReturn (snd (deal_visitor cf k c s))) by (intros; unfold deal_visitor, calc_next_id; destruct (filter _ _) as [|[j n] l]; (split; [assumption|intros [X|[]]; discriminate X])).
        destruct k; try (apply V; exact H); try (split; [exact H|intros [X|[]]; discriminate X]).
        + unfold deal_client, calc_next_id. destruct (cf_tunnel cf); [destruct (room <=? co_queue _)%nat|]; (split; [exact H|try (intros [X|[]]; discriminate X); intros []]).
        + destruct (cf_tls cf); [|unfold deal_center; destruct (cf_up cf)]; (split; [exact H|try (intros [X|[]]; discriminate X); intros []]).
      - destruct (co_phase s); try (split; [exact H|intros []]; fail). destruct ok; [|split; [exact H|intros [X|[]]; discriminate X]]. unfold deal_center. destruct (cf_up cf); (split; [exact H|cbn; intros X; intuition discriminate]).
      - destruct (co_phase s); try (split; [exact H|intros []]; fail). split; [exact H|]. destruct ok; intros [X|[]]; discriminate X.
      - destruct (co_queue s); [split; [exact H|intros []]|]. destruct (co_phase s); (split; [exact H|try (intros [X|[]]; discriminate X); intros []]).
      - destruct (_ && _); (split; [exact H|try (intros [X|[]]; discriminate X); intros []]).
      - destruct (co_phase s); try (split; [exact H|intros []]; fail). rewrite H. split; [exact H|intros []]. }
    assert (I : forall es s, co_stop s = false -> ~ In CStop es -> ~ In XReturn (snd (corun cf s es))).
    { clear -M. induction es as [|e es IH]; intros s H NI; [intros []|]. cbn [corun].
      destruct (M s e H) as [A B]; [intro X; apply NI; left; exact X|]. destruct (costep cf s e) as [s1 o]. cbn [fst snd] in *.
      assert (Q := IH s1 A (fun X => NI (or_intror X))). destruct (corun cf s1 es) as [s2 o2]. cbn [snd] in *. rewrite in_app_iff. tauto. }
    intros H R. destruct (existsb (fun e => match e with CStop => true | _ => false end) es) eqn:X.
    - apply existsb_exists in X. destruct X as (e & J & K). destruct e; try discriminate K. exact J.
    - exfalso. apply (I es core0 eq_refl); [|rewrite H; exact R]. intro J. assert (Y : existsb (fun e => match e with CStop => true | _ => false end) es = true) by (apply existsb_exists; exists CStop; auto). congruence.
  Qed.
  (* For every configuration: once whatever the loop may be waiting for has happened, with
     whatever outcome (a handshake has ended, the upper server has answered, the tunnel
     client has taken something from its queue), the next connection of every port is
     taken, and is settled when this has happened again; and a stop is obeyed at once. *)
  Theorem C109_recovers_partial es s tr ok1 ok2 s1 tr1 : corun cf core0 es = (s, tr) -> ~ In XReturn tr ->
    corun cf s [CShaken ok1; CDialed ok2; CTake] = (s1, tr1) ->
    (In CStop es -> snd (costep cf s1 CSeeStop) = [XReturn]) /\
    (forall k c rest, arrived k es = settled k (tr ++ tr1) ++ c :: rest -> forall ok3 ok4,
      settled k (snd (corun cf s1 [CAccept k; CShaken ok3; CDialed ok4; CTake])) = [c]).
  Proof.
    intros H N H1. assert (F := full_run cf es core0 ltac:(intros ? ? X; discriminate X)). rewrite H in F. cbn [fst] in F.
    assert (E : co_phase s <> CEnd). { intro X. assert (Q := ended_run cf es core0). rewrite H in Q. destruct (Q X) as [Y|Y]; [discriminate Y|exact (N Y)]. }
    assert (D := freed cf s ok1 ok2 F E). cbv zeta in D. rewrite H1 in D. destruct D as (P & W & S0). split.
    - intros A. assert (Q := stop_kept cf es core0 (or_intror A)). rewrite H in Q. cbn [fst] in *. cbn [costep]. rewrite P, S0, Q. reflexivity.
    - intros k c rest A ok3 ok4. assert (F1 := full_run cf [CShaken ok1; CDialed ok2; CTake] s F). rewrite H1 in F1. cbn [fst] in F1, P, W.
      assert (Q := run_kept cf k (es ++ [CShaken ok1; CDialed ok2; CTake]) core0). rewrite (corun_app cf) in Q. rewrite H in Q. cbn [fst snd] in Q. rewrite H1 in Q. cbn [fst snd] in Q.
      assert (AA : arrived k (es ++ [CShaken ok1; CDialed ok2; CTake]) = arrived k es) by (unfold arrived; rewrite flat_map_app; cbn [flat_map app]; apply app_nil_r).
      rewrite AA, A in Q. cbn [kept inside outside core0 co_phase co_wait flat_map app fst snd] in Q. apply app_inv_head in Q.
      unfold kept, inside in Q. rewrite P in Q. cbn [app] in Q.
      change [CAccept k; CShaken ok3; CDialed ok4; CTake] with ([CAccept k] ++ [CShaken ok3; CDialed ok4; CTake]).
      assert (R := run_kept cf k ([CAccept k] ++ [CShaken ok3; CDialed ok4; CTake]) s1).
      rewrite (corun_app cf) in *. assert (F2 := full_run cf [CAccept k] s1 F1). assert (L := ended_run cf [CAccept k] s1).
      destruct (take k (co_wait s1)) as [[c' w]|] eqn:T.
      + assert (W2 : co_wait (fst (corun cf s1 [CAccept k])) = w /\ ~ In XReturn (snd (corun cf s1 [CAccept k]))).
        { cbn [corun costep]. rewrite P, T. clear. destruct k; unfold deal_client, deal_center, deal_visitor; cbn [with_wait co_servers co_dead co_queue co_phase];
          repeat match goal with |- context [let (_, _) := calc_next_id ?a ?b in _] => destruct (calc_next_id a b)
               | |- context [if ?b then _ else _] => destruct b | |- context [match filter ?a ?b with _ => _ end] => destruct (filter a b) as [|[? ?] ?] end; cbn; split; try reflexivity; intuition discriminate. }
        destruct W2 as (W2 & N2). destruct (corun cf s1 [CAccept k]) as [s2 o2]. cbn [fst snd] in *.
        assert (E2 : co_phase s2 <> CEnd) by (intro X; destruct (L X) as [Y|Y]; [congruence|exact (N2 Y)]).
        assert (D := freed cf s2 ok3 ok4 F2 E2). cbv zeta in D. destruct (corun cf s2 [CShaken ok3; CDialed ok4; CTake]) as [s3 o3]. cbn [fst snd] in *.
        destruct D as (P3 & W3 & _). unfold kept, inside in R. rewrite P, P3 in R. cbn [app] in R. unfold outside in R, Q. rewrite W3, W2 in R.
        destruct (take_outside _ _ _ _ T) as (B & _). rewrite B in Q. injection Q as <- Q. unfold arrived in R. cbn [flat_map app] in R. rewrite app_nil_r in R. rewrite B in R.
        assert (G : [c] ++ flat_map (fun x => if lkind_eqb (fst x) k then [snd x] else []) w = settled k (o2 ++ o3) ++ flat_map (fun x => if lkind_eqb (fst x) k then [snd x] else []) w) by exact R.
        apply app_inv_tail in G. symmetry. exact G.
      + exfalso. unfold outside in Q. revert T Q. clear. generalize (co_wait s1). induction l as [|[k0 c0] l IH]; cbn [take flat_map fst snd]; [discriminate|]. destruct (lkind_eqb k0 k); [discriminate|]. destruct (take k l) as [[x r]|]; [discriminate|]. intros _ Q. exact (IH eq_refl Q).
  Qed.
  (* false of the code otherwise: after one connection to the tunnel port whose peer sends
     nothing, no connection of any port is accepted and no stop is obeyed, for ever *)
  Theorem C109_silent_peer_refuted es s tr c rest es' : cf_tls cf = true -> corun cf core0 es = (s, tr) -> co_phase s = CListen ->
    arrived LCenter es = settled LCenter tr ++ c :: rest -> (forall ok, ~ In (CShaken ok) es') ->
    forall o, In o (snd (corun cf s (CAccept LCenter :: es'))) -> exists j, o = XOver j.
  Proof.
    intros T H P A N o I. assert (Q := run_kept cf LCenter es core0). rewrite H in Q. cbn [kept inside outside core0 co_phase co_wait flat_map app fst snd] in Q. rewrite A in Q. apply app_inv_head in Q.
    unfold kept, inside in Q. rewrite P in Q. cbn [app] in Q. cbn [corun costep] in I. rewrite P in I. destruct (take LCenter (co_wait s)) as [[c' w]|] eqn:E.
    - rewrite T in I. set (s1 := with_phase (CShake c') (with_wait w s)) in *.
      assert (F : forallb (stuck_event (co_phase s1)) es' = true) by (apply forallb_forall; intros e X; destruct e; try reflexivity; exfalso; exact (N ok X)).
      destruct (stuck_run cf es' s1 F) as (_ & C). destruct (corun cf s1 es') as [s2 o2]. cbn [fst snd app] in *. rewrite forallb_forall in C. specialize (C o I). destruct o; try discriminate C. eauto.
    - exfalso. unfold outside in Q. revert E Q. generalize (co_wait s). induction l as [|[k0 c0] l IH]; cbn [take flat_map fst snd]; [discriminate|]. destruct (lkind_eqb k0 LCenter); [discriminate|]. destruct (take LCenter l) as [[x r]|]; [discriminate|]. intros _ Q. exact (IH eq_refl Q).
  Qed.
  (* the same while the upper server, or the tunnel client's queue, is awaited *)
  Theorem C109_upper_server_refuted s es : (exists c, co_phase s = CDial c) -> (forall ok, ~ In (CDialed ok) es) ->
    forall o, In o (snd (corun cf s es)) -> exists j, o = XOver j.
  Proof.
    intros (c & P) N o I. assert (F : forallb (stuck_event (co_phase s)) es = true) by (rewrite P; apply forallb_forall; intros e X; destruct e; try reflexivity; exfalso; exact (N ok X)).
    destruct (stuck_run cf es s F) as (_ & C). rewrite forallb_forall in C. specialize (C o I). destruct o; try discriminate C. eauto.
  Qed.
  Theorem C109_full_queue_refuted s es : (exists c id, co_phase s = CRoom c id) -> ~ In CTake es ->
    forall o, In o (snd (corun cf s es)) -> exists j, o = XOver j.
  Proof.
    intros (c & id & P) N o I. assert (F : forallb (stuck_event (co_phase s)) es = true) by (rewrite P; apply forallb_forall; intros e X; destruct e; try reflexivity; exfalso; exact (N X)).
    destruct (stuck_run cf es s F) as (_ & C). rewrite forallb_forall in C. specialize (C o I). destruct o; try discriminate C. eauto.
  Qed.
End Props.

(* ---- starting ------------------------------------------------------------------ *)
(* the address the configuration gives for a port of the proxy section *)
Definition configured (c : pconf) (k : lkind) : option saddr :=
  match k with LClient => p_bind c | LCenter => p_center c | LHttp => p_http c | LHttps => p_https c | LTcp => p_tcp c | LProxy => p_proxy c | _ => None end.

Section Start.
  Context (read : text -> option (list pem)) (own_certs : list N) (own_key : N)
          (pair_ok : list N -> N -> bool) (root_ok : N -> bool) (can_bind : saddr -> bool) (reach : text -> bool -> bool).
  Notation start := (proxy_start read own_certs own_key pair_ok root_ok can_bind reach).

  (* what a certificate and a key file must hold to be usable: certificates, one RSA key,
     and they fit *)
  Definition certs_in (path : option text) (certs : list N) : Prop :=
    match path with None => certs = own_certs | Some p => exists l, read p = Some l /\ certs = flat_map (fun x => match x with PCert c => [c] | _ => [] end) l end.
  Definition key_in (path : option text) (k : N) : Prop :=
    match path with None => k = own_key | Some p => exists l, read p = Some l /\ flat_map (fun x => match x with PRsa k => [k] | _ => [] end) l = [k] end.
  Definition usable (cert key : option text) : Prop := exists certs k, certs_in cert certs /\ key_in key k /\ pair_ok certs k = true.

  Lemma load_certs_ok p certs : load_certs read own_certs p = Some certs <-> certs_in p certs.
  Proof.
    unfold load_certs, certs_in. destruct p as [p|]; [|split; [intro H; injection H as <-; reflexivity|intros ->; reflexivity]].
    destruct (read p) as [l|]; split.
    - intro H. injection H as <-. exists l. split; reflexivity.
    - intros (l' & H & ->). injection H as ->. reflexivity.
    - discriminate.
    - intros (l' & H & _). discriminate H.
  Qed.
  Lemma load_keys_ok p k : load_keys read own_key p = Some k <-> key_in p k.
  Proof.
    unfold load_keys, key_in. destruct p as [p|]; [|split; [intro H; injection H as <-; reflexivity|intros ->; reflexivity]].
    destruct (read p) as [l|].
    - unfold pem_rsa. split.
      + intro H. exists l. split; [reflexivity|]. destruct (flat_map _ l) as [|a [|b r]]; try discriminate H. injection H as ->. reflexivity.
      + intros (l' & H & E). injection H as ->. rewrite E. reflexivity.
    - split; [discriminate|]. intros (l' & H & _). discriminate H.
  Qed.
  Lemma map_ok c : get_map_tls_accept read own_certs own_key pair_ok c = true <-> usable (p_map_cert c) (p_map_key c).
  Proof.
    unfold get_map_tls_accept, usable. destruct (load_certs read own_certs (p_map_cert c)) as [certs|] eqn:A.
    - apply load_certs_ok in A. destruct (load_keys read own_key (p_map_key c)) as [k|] eqn:B.
      + apply load_keys_ok in B. split; [intro H; exists certs, k; auto|]. intros (certs' & k' & A' & B' & H). apply load_certs_ok in A, A'. apply load_keys_ok in B, B'. congruence.
      + split; [discriminate|]. intros (certs' & k' & A' & B' & H). apply load_keys_ok in B'. congruence.
    - split; [discriminate|]. intros (certs' & k' & A' & B' & H). apply load_certs_ok in A'. congruence.
  Qed.

  Lemma start_parts c b : start c = BOk b ->
    b_accept b = (match get_tls_accept read own_certs own_key pair_ok root_ok c with Ok _ => true | _ => false end) /\
    b_request b = (match get_tls_request read own_certs own_key pair_ok c with Ok _ => true | _ => false end) /\ get_tls_accept read own_certs own_key pair_ok root_ok c <> Panic.
  Proof.
    unfold proxy_start. destruct (get_tls_accept _ _ _ _ _ c) as [u|u|] eqn:E; try discriminate; intro H;
      (destruct (match p_bind c with Some _ => match p_server c with Some sv => Some (reach sv (match get_tls_request read own_certs own_key pair_ok c with Ok _ => true | _ => false end)) | None => None end | None => None end) as [[|]|]; try discriminate H; (destruct (listens can_bind _); [|discriminate H]; injection H as <-; repeat split; (reflexivity || discriminate))).
  Qed.
  (* C110: TLS on the tunnel port is on exactly when it is configured and the certificate
     and key can be used *)
  Theorem C110_on c b : start c = BOk b -> (b_accept b = true <-> p_tc c = true /\ exists certs k, certs_in (p_cert c) certs /\ key_in (p_key c) k /\ pair_ok certs k = true /\ (p_two_way c = true -> certs <> [])).
  Proof.
    intro H. destruct (start_parts c b H) as (-> & _ & NP). unfold get_tls_accept in *. destruct (p_tc c); cbn [negb] in *; [|split; [discriminate|intros (X & _); discriminate X]].
    destruct (load_certs read own_certs (p_cert c)) as [certs|] eqn:A; [|split; [discriminate|intros (_ & certs & k & Q & _); apply load_certs_ok in Q; congruence]].
    destruct (load_keys read own_key (p_key c)) as [k|] eqn:B; [|split; [discriminate|intros (_ & certs' & k & _ & Q & _); apply load_keys_ok in Q; congruence]].
    assert (G : (exists certs k, certs_in (p_cert c) certs /\ key_in (p_key c) k /\ pair_ok certs k = true /\ (p_two_way c = true -> certs <> [])) <-> pair_ok certs k = true /\ (p_two_way c = true -> certs <> [])).
    { split.
      - intros (certs' & k' & Q & Q' & W). apply load_certs_ok in Q. apply load_keys_ok in Q'. assert (certs' = certs) by congruence. assert (k' = k) by congruence. subst. exact W.
      - intro W. exists certs, k. apply load_certs_ok in A. apply load_keys_ok in B. tauto. }
    rewrite G. clear G. destruct (p_two_way c).
    - destruct (negb (forallb root_ok certs)); [contradiction NP; reflexivity|]. destruct certs as [|x certs].
      + split; [discriminate|]. intros (_ & _ & W). exfalso. exact (W eq_refl eq_refl).
      + destruct (pair_ok (x :: certs) k); split; try discriminate; try reflexivity; [intros _; repeat split; discriminate|intros (_ & W & _); discriminate W].
    - destruct (pair_ok certs k); split; try discriminate; try reflexivity; [intros _; repeat split; discriminate|intros (_ & W & _); discriminate W].
  Qed.
  (* C110: with it on, no connection becomes a tunnel, or is passed on, before its
     handshake has succeeded *)
  Theorem C110_secured c b sid es s tr1 o tr2 v : start c = BOk b -> b_accept b = true ->
    corun (ccfg_of c b sid) core0 es = (s, tr1 ++ o :: tr2) -> (exists j, o = XTunnel j v) \/ o = XRelay v -> In (XSecure v) tr1.
  Proof. intros _ A H Q. exact (secured (ccfg_of c b sid) es s tr1 o tr2 v A H Q). Qed.
  (* C110, full statement: when TLS is configured for the tunnel port, no tunnel without
     it.  False of the code: when the files cannot be used, for instance because the key is
     not an RSA key, the server starts and takes tunnels in the clear *)
  Theorem C110_clear_refuted c b sid v : start c = BOk b -> p_tc c = true -> ~ usable (p_cert c) (p_key c) -> p_server c = None ->
    snd (corun (ccfg_of c b sid) core0 [CConn LCenter v; CAccept LCenter]) = [XTunnel 0 v].
  Proof.
    intros S T U N. assert (A : b_accept b = false).
    { destruct (b_accept b) eqn:A; [|reflexivity]. exfalso. apply U. apply (proj1 (C110_on c b S)) in A. destruct A as (_ & certs & k & A1 & A2 & A3 & _). exists certs, k. auto. }
    cbn [corun costep core0 co_phase co_wait app with_wait take lkind_eqb snd fst]. unfold ccfg_of. rewrite A, N. reflexivity.
  Qed.
  (* and so does the client: with TLS configured and an unusable certificate file it
     connects in the clear *)
  Theorem C110_client c b : start c = BOk b -> (b_request b = true <-> p_ts c = true /\ exists certs, certs_in (p_cert c) certs /\ (p_two_way c = true -> exists k, key_in (p_key c) k /\ pair_ok certs k = true)).
  Proof.
    intro H. destruct (start_parts c b H) as (_ & HB & _).
    rewrite HB. unfold get_tls_request. destruct (p_ts c); cbn [negb]; [|split; [discriminate|intros (X & _); discriminate X]].
    destruct (load_certs read own_certs (p_cert c)) as [certs|] eqn:A; [|split; [discriminate|intros (_ & certs & Q & _); apply load_certs_ok in Q; congruence]].
    destruct (p_two_way c); [|split; [intros _; split; [reflexivity|]; exists certs; apply load_certs_ok in A; split; [exact A|discriminate]|reflexivity]].
    destruct (load_keys read own_key (p_key c)) as [k|] eqn:B.
    - split.
      + intro Q. split; [reflexivity|]. exists certs. apply load_certs_ok in A. split; [exact A|]. intros _. exists k. apply load_keys_ok in B. split; [exact B|]. destruct (pair_ok certs k); [reflexivity|discriminate Q].
      + intros (_ & certs' & Q & W). destruct (W eq_refl) as (k' & X & Y). apply load_certs_ok in Q. apply load_keys_ok in X. assert (certs' = certs) by congruence. assert (k' = k) by congruence. subst. now rewrite Y.
    - split; [discriminate|]. intros (_ & certs' & Q & W). destruct (W eq_refl) as (k' & X & Y). apply load_keys_ok in X. congruence.
  Qed.
  Theorem C110_client_clear_refuted c b sv a p : start c = BOk b -> p_ts c = true -> p_cert c = Some p -> read p = None -> p_bind c = Some a -> p_server c = Some sv ->
    b_request b = false /\ reach sv false = true.
  Proof.
    intros H T P R B S. assert (F : b_request b = false).
    { destruct (b_request b) eqn:Q; [|reflexivity]. exfalso. apply (proj1 (C110_client c b H)) in Q. destruct Q as (_ & certs & Q & _). unfold certs_in in Q. rewrite P in Q. destruct Q as (l & Q & _). congruence. }
    split; [exact F|]. unfold proxy_start in H. rewrite B, S in H. unfold get_tls_request, load_certs in H. rewrite T, P, R in H. cbn [negb] in H.
    destruct (get_tls_accept _ _ _ _ _ c); try discriminate H; destruct (reach sv false); (reflexivity || discriminate H).
  Qed.
  (* with two-way TLS a certificate that is no good as a root crashes the start *)
  Theorem C110_crash_refuted c certs k x : p_tc c = true -> p_two_way c = true -> certs_in (p_cert c) certs -> key_in (p_key c) k -> In x certs -> root_ok x = false -> start c = BPanic.
  Proof.
    intros T W A B I R. apply load_certs_ok in A. apply load_keys_ok in B. unfold proxy_start, get_tls_accept. rewrite T, A, B, W. cbn [negb].
    assert (F : forallb root_ok certs = false) by (destruct (forallb root_ok certs) eqn:F; [rewrite forallb_forall in F; rewrite (F x I) in R; discriminate R|reflexivity]). rewrite F. reflexivity.
  Qed.

  Lemma listens_ok l : forall acc, fold_left (fun acc x => match acc, listen can_bind (fst x) (snd x) with Some r, Some y => Some (r ++ y) | _, _ => None end) l acc =
    match acc with None => None | Some r => if forallb (fun x => match snd x with Some a => can_bind a | None => true end) l then Some (r ++ flat_map (fun x => match snd x with Some a => [(fst x, a)] | None => [] end) l) else None end.
  Proof.
    induction l as [|[k a] l IH]; intro acc; cbn [fold_left forallb flat_map fst snd].
    - destruct acc; [now rewrite app_nil_r|reflexivity].
    - rewrite IH. destruct acc as [r|]; [|reflexivity]. unfold listen. destruct a as [a|]; cbn [app]; [destruct (can_bind a); cbn [andb]; [now rewrite <- app_assoc|reflexivity]|now rewrite app_nil_r].
  Qed.
  Lemma start_listen c b : start c = BOk b ->
    (forall k a, configured c k = Some a -> can_bind a = true) /\
    (forall k a, In (k, a) (b_listen b) <-> configured c k = Some a /\ (k = LHttps -> b_map b = true)) /\
    b_map b = match p_https c with Some _ => get_map_tls_accept read own_certs own_key pair_ok c | None => false end.
  Proof.
    intro H. unfold proxy_start in H. set (M := match p_https c with Some _ => get_map_tls_accept read own_certs own_key pair_ok c | None => false end) in *.
    set (LL := [(LClient, p_bind c); (LCenter, p_center c); (LHttp, p_http c); (LHttps, p_https c); (LTcp, p_tcp c); (LProxy, p_proxy c)]) in *.
    assert (G : exists l, listens can_bind LL = Some l /\ b_map b = M /\ b_listen b = if M then l else filter (fun x => match fst x with LHttps => false | _ => true end) l).
    { destruct (get_tls_accept _ _ _ _ _ c); try discriminate H;
      (destruct (match p_bind c with Some _ => match p_server c with Some sv => Some (reach sv (match get_tls_request read own_certs own_key pair_ok c with Ok _ => true | _ => false end)) | None => None end | None => None end) as [[|]|]; try discriminate H; (destruct (listens can_bind LL) as [l|]; [|discriminate H]; injection H as <-; exists l; repeat split; reflexivity)). }
    destruct G as (l & L & BM & BL). unfold listens in L. rewrite listens_ok in L. destruct (forallb _ LL) eqn:F; [|discriminate L]. injection L as L. cbn [app] in L.
    assert (IN : forall k a, In (k, a) l <-> configured c k = Some a).
    { intros k a. rewrite <- L. unfold LL. cbn [flat_map fst snd]. rewrite !in_app_iff.
      assert (O : forall k' (o : option saddr), In (k, a) (match o with Some x => [(k', x)] | None => [] end) <-> o = Some a /\ k' = k) by (intros k' [x|]; cbn; split; [intros [Q|[]]; injection Q as -> ->; auto|intros (Q & ->); injection Q as ->; now left|intros []|intros (Q & _); discriminate Q]).
      rewrite !O. cbn [In]. destruct k; cbn [configured]; intuition congruence. }
    split; [|split].
    - intros k a Q. rewrite forallb_forall in F. specialize (F (k, Some a)). apply F. rewrite <- Q. unfold LL. destruct k; cbn [configured In] in *; try discriminate Q; tauto.
    - intros k a. rewrite BL, BM. destruct M; [rewrite IN; tauto|]. rewrite filter_In, IN. cbn [fst]. destruct k; intuition congruence.
    - exact BM.
  Qed.
  (* C111: a started server listens at exactly the configured addresses; the https port
     for visitors exactly when its certificate and key can be used.  In the other case it
     starts all the same, without that port (C111_https_refuted) *)
  Theorem C111_ports c b : start c = BOk b -> forall k a, In (k, a) (b_listen b) <-> configured c k = Some a /\ (k = LHttps -> usable (p_map_cert c) (p_map_key c)).
  Proof.
    intro H. destruct (start_listen c b H) as (_ & A & B). intros k a. rewrite A. split; intros (Q & W); (split; [exact Q|]); intro E; subst k; specialize (W eq_refl); cbn in Q.
    - rewrite B, Q in W. apply map_ok. exact W.
    - rewrite B, Q. apply map_ok. exact W.
  Qed.
  Theorem C111_https_refuted c b a : start c = BOk b -> p_https c = Some a -> ~ usable (p_map_cert c) (p_map_key c) -> forall a', ~ In (LHttps, a') (b_listen b).
  Proof. intros H P U a' I. apply (C111_ports c b H) in I. destruct I as (_ & I). exact (U (I eq_refl)). Qed.
  (* every https connection finds its acceptor (src/wmcore.rs unwraps it) *)
  Theorem C111_acceptor c b a : start c = BOk b -> In (LHttps, a) (b_listen b) -> b_map b = true.
  Proof. intros H I. destruct (start_listen c b H) as (_ & A & _). apply A in I. apply I. reflexivity. Qed.
  (* and an address that cannot be bound stops the start *)
  Theorem C111_taken c k a : configured c k = Some a -> can_bind a = false -> forall b, start c <> BOk b.
  Proof. intros C B b H. destruct (start_listen c b H) as (A & _). rewrite (A k a C) in B. discriminate B. Qed.

  (* C112, full statement: a server that cannot be reached at the moment does not end the
     proxy.  False of the code: it ends the whole process *)
  Theorem C112_unreachable_refuted c sv a : p_bind c = Some a -> p_server c = Some sv -> reach sv true = false -> reach sv false = false ->
    start c = BExit \/ start c = BPanic.
  Proof.
    intros B S R1 R2. unfold proxy_start. rewrite B, S. destruct (get_tls_accept _ _ _ _ _ c); [left|left|right; reflexivity]; (destruct (get_tls_request _ _ _ _ c); rewrite ?R1, ?R2; reflexivity).
  Qed.
  Theorem C112_reached_partial c : (forall sv t, p_server c = Some sv -> reach sv t = true) \/ p_server c = None \/ p_bind c = None -> start c <> BExit.
  Proof.
    intros H E. unfold proxy_start in E. destruct (get_tls_accept _ _ _ _ _ c); try discriminate E;
      (destruct (p_bind c) as [ab|], (p_server c) as [sv|]; try (destruct (listens can_bind _); discriminate E);
       destruct H as [H|[H|H]]; try discriminate H; rewrite (H sv _ eq_refl) in E; destruct (listens can_bind _); discriminate E).
  Qed.
End Start.

(* ---- concrete cases ------------------------------------------------------------ *)
(* two clients connect, a visitor comes, the first client leaves, another visitor comes *)
Definition ex_cf := CCfg false false false 7.
Definition ex_es := [CConn LCenter 1; CAccept LCenter; CConn LCenter 2; CAccept LCenter; CConn LTcp 3; CAccept LTcp; CGone 0; CConn LHttp 4; CConn LTcp 5; CAccept LTcp; CAccept LHttp; CGone 1; CConn LTcp 6; CAccept LTcp; CStop; CSeeStop].
(* all ports, with the certificates of the program for https; a taken port, a bad key file, a
   server that is away *)
Example C111_C112_cases :
  let a p := SAddr (V4 0) p in
  let go := proxy_start (fun _ => Some [PCert 1]) [5] 6 (fun _ _ => true) (fun _ => true) (fun x => negb (sa_port x =? 9)) (fun _ _ => false) in
  let c key server proxy := PConf false false false None None None key server (Some (a 1)) (Some (a 2)) (Some (a 3)) (Some (a 4)) (Some (a 5)) (Some (a proxy)) in
  go (c None None 6) = BOk (Binding false false false true [(LClient, a 1); (LCenter, a 2); (LHttp, a 3); (LHttps, a 4); (LTcp, a 5); (LProxy, a 6)]) /\
  go (c (Some (txt "k")) None 6) = BOk (Binding false false false false [(LClient, a 1); (LCenter, a 2); (LHttp, a 3); (LTcp, a 5); (LProxy, a 6)]) /\
  (forall b, go (c None None 9) <> BOk b) /\ go (c None (Some (txt "sv")) 6) = BExit.
Proof. cbv zeta. split; [vm_compute; reflexivity|]. split; [vm_compute; reflexivity|]. split; [vm_compute; discriminate|vm_compute; reflexivity]. Qed.
Example C107_demo : snd (corun ex_cf core0 ex_es) =
  [XTunnel 0 1; XTunnel 1 2; XVisitor LTcp 3 0 (calc_sock_map 7 2); XOver 0; XVisitor LTcp 5 1 (calc_sock_map 7 2); XVisitor LHttp 4 1 (calc_sock_map 7 4); XOver 1; XDrop LTcp 6; XReturn].
Proof. reflexivity. Qed.
Example C108_demo : let es := [CConn LCenter 1; CAccept LCenter; CConn LCenter 2; CAccept LCenter; CConn LTcp 3; CAccept LTcp] in
  In (XTunnel 0 1) (snd (corun ex_cf core0 es)) /\ ~ In (XOver 0) (snd (corun ex_cf core0 es)) /\ In (XVisitor LTcp 3 0 (calc_sock_map 7 2)) (snd (corun ex_cf core0 es)).
Proof. cbn. intuition discriminate. Qed.
(* a handshake and an upper server are awaited; then connection 3 is next *)
Example C109_recovers_case : let cf := CCfg true true true 7 in let es := [CConn LCenter 1; CConn LCenter 3; CAccept LCenter; CStop] in
  let '(s, tr) := corun cf core0 es in let '(s1, tr1) := corun cf s [CShaken true; CDialed false; CTake] in
  ~ In XReturn tr /\ co_phase s = CShake 1 /\ tr1 = [XSecure 1; XDrop LCenter 1] /\ arrived LCenter es = settled LCenter (tr ++ tr1) ++ 3 :: [] /\
  snd (costep cf s1 CSeeStop) = [XReturn] /\ snd (corun cf s1 [CAccept LCenter; CShaken true; CDialed true; CTake]) = [XSecure 3; XRelay 3].
Proof. cbn. intuition. Qed.
(* with TLS: connection 1 is silent; nothing else happens *)
Example C109_demo : let cf := CCfg true false false 7 in
  snd (corun cf core0 [CConn LCenter 1; CAccept LCenter; CConn LCenter 2; CAccept LCenter; CConn LWeb 3; CAccept LWeb; CStop; CSeeStop]) = [] /\
  snd (corun cf core0 [CConn LCenter 1; CAccept LCenter; CConn LWeb 3; CShaken true; CAccept LWeb; CStop; CSeeStop]) = [XSecure 1; XTunnel 0 1; XServe LWeb 3; XReturn] /\
  (exists s, corun cf core0 [CConn LCenter 1] = (s, []) /\ co_phase s = CListen /\ arrived LCenter [CConn LCenter 1] = settled LCenter [] ++ 1 :: []).
Proof. split; [reflexivity|]. split; [reflexivity|]. eexists. split; [reflexivity|]. split; reflexivity. Qed.
Example C109_dial_demo : let cf := CCfg false true false 7 in co_phase (fst (corun cf core0 [CConn LCenter 1; CAccept LCenter])) = CDial 1 /\
  snd (corun cf core0 [CConn LCenter 1; CAccept LCenter; CDialed true]) = [XRelay 1].
Proof. split; reflexivity. Qed.
Example C109_queue_demo : let cf := CCfg false false true 7 in
  co_phase (fst (corun cf core0 (List.concat (repeat [CConn LClient 1; CAccept LClient] 11)))) = CRoom 1 (calc_sock_map 7 21).
Proof. reflexivity. Qed.
(* a key in another format than RSA *)
Definition ex_read (p : text) : option (list pem) := if leqb p (txt "cert.pem") then Some [PCert 5] else if leqb p (txt "key.pem") then Some [POther 6] else if leqb p (txt "rsa.pem") then Some [PRsa 6] else None.
Definition ex_addr := SAddr (V4 0) 8091.
Definition ex_conf (key : text) := PConf true false false (Some (txt "cert.pem")) (Some key) (Some (txt "cert.pem")) (Some key) None None (Some ex_addr) None (Some ex_addr) None None.
Definition ex_start := proxy_start ex_read [1] 2 (fun _ _ => true) (fun _ => true) (fun _ => true) (fun _ _ => true).
Example C110_demo : ex_start (ex_conf (txt "key.pem")) = BOk (Binding false false false false [(LCenter, ex_addr)]) /\
  ex_start (ex_conf (txt "rsa.pem")) = BOk (Binding true false false true [(LCenter, ex_addr); (LHttps, ex_addr)]) /\
  ~ usable ex_read [1] 2 (fun _ _ => true) (Some (txt "cert.pem")) (Some (txt "key.pem")).
Proof.
  split; [reflexivity|]. split; [reflexivity|]. intros (certs & k & _ & (l & R & E) & _). injection R as <-. discriminate E.
Qed.

Print Assumptions C107_visitor.
Print Assumptions C107_refused.
Print Assumptions C107_order.
Print Assumptions C107_numbers.
Print Assumptions C108_later_client_refuted.
Print Assumptions C108_only_client_partial.
Print Assumptions C109_order.
Print Assumptions C109_accepts_partial.
Print Assumptions C109_stops_partial.
Print Assumptions C109_only_told.
Print Assumptions C109_recovers_partial.
Print Assumptions C109_silent_peer_refuted.
Print Assumptions C109_upper_server_refuted.
Print Assumptions C109_full_queue_refuted.
Print Assumptions C110_on.
Print Assumptions C110_secured.
Print Assumptions C110_clear_refuted.
Print Assumptions C110_client.
Print Assumptions C110_client_clear_refuted.
Print Assumptions C110_crash_refuted.
Print Assumptions C111_ports.
Print Assumptions C111_https_refuted.
Print Assumptions C111_acceptor.
Print Assumptions C111_taken.
Print Assumptions C112_unreachable_refuted.
Print Assumptions C112_reached_partial.
