(* C182: the part an instance plays: the root of the tunnels, or one that passes on. *)
From Coq Require Import Lia.
From Coq Require Import String.
From Verif Require Import Base Text TextOps AddrModel ProtModel IdModel CoreModel CoreSpec CoreProofs CoreProps RlSpec.
Open Scope N_scope.

(* ---- an invariant over the accept loop ------------------------------------------ *)
Definition ok_out (cf : ccfg) (o : coout) : Prop :=
  match o with
  | XTunnel _ _ => cf_up cf = false
  | XRelay _ => cf_up cf = true
  | XVisitor _ _ _ _ => cf_up cf = false
  | XForward _ _ => cf_tunnel cf = true
  | XLocal _ => cf_tunnel cf = false
  | XSecure _ => cf_tls cf = true
  | XDrop LCenter _ => cf_up cf = true \/ cf_tls cf = true
  | XDrop k _ => visitor_port k
  | XServe k _ => k = LWeb \/ k = LStream
  | _ => True
  end.
Definition ok_core (cf : ccfg) (s : core) : Prop :=
  (cf_up cf = true -> co_servers s = []) /\
  match co_phase s with CDial _ => cf_up cf = true | CShake _ => cf_tls cf = true | CRoom _ _ => cf_tunnel cf = true | _ => True end.
Lemma ok_center cf c s : ok_core cf s -> ok_core cf (fst (deal_center cf c s)) /\ Forall (ok_out cf) (snd (deal_center cf c s)).
Proof.
  intros (A & _). unfold deal_center. destruct (cf_up cf) eqn:U; cbn [fst snd].
  - split; [split; cbn; auto|constructor].
  - split; [split; cbn; [congruence|exact I]|]. constructor; [exact U|constructor].
Qed.
Lemma ok_client cf c s : ok_core cf s -> ok_core cf (fst (deal_client cf c s)) /\ Forall (ok_out cf) (snd (deal_client cf c s)).
Proof.
  intros (A & _). unfold deal_client. destruct (cf_tunnel cf) eqn:U.
  - unfold calc_next_id. destruct (room <=? co_queue s)%nat; cbn [fst snd]; (split; [split; cbn; auto|repeat constructor; exact U]).
  - cbn [fst snd]. split; [split; cbn; auto|repeat constructor; exact U].
Qed.
Lemma ok_visitor cf k c s : visitor_port k -> ok_core cf s -> ok_core cf (fst (deal_visitor cf k c s)) /\ Forall (ok_out cf) (snd (deal_visitor cf k c s)).
Proof.
  intros K (A & _). unfold deal_visitor. destruct (filter _ (co_servers s)) as [|[j n] l] eqn:F.
  - cbn [fst snd]. split; [split; cbn; auto|]. constructor; [|constructor]. destruct k; cbn; try exact K. destruct K as [K|[K|[K|[K|[]]]]]; discriminate K.
  - unfold calc_next_id. cbn [fst snd]. destruct (cf_up cf) eqn:U; [rewrite (A eq_refl) in F; discriminate F|].
    split; [split; cbn; [rewrite U; discriminate|exact I]|]. constructor; [exact U|constructor].
Qed.
Lemma ok_step cf s e : ok_core cf s -> ok_core cf (fst (costep cf s e)) /\ Forall (ok_out cf) (snd (costep cf s e)).
Proof.
  intro V. assert (A := proj1 V). assert (P := proj2 V). destruct e as [k c|k|ok|ok| |j| |]; cbn [costep].
  - split; [exact V|constructor].
  - destruct (co_phase s) eqn:E; try (split; [exact V|constructor]). destruct (take k (co_wait s)) as [[c w]|]; [|split; [exact V|constructor]].
    assert (V' : ok_core cf (with_wait w s)) by exact V.
    destruct k.
    + apply ok_client; exact V'.
    + destruct (cf_tls cf) eqn:T; [|apply ok_center; exact V']. split; [split; cbn; auto|constructor].
    + apply ok_visitor; [cbn; tauto|exact V'].
    + apply ok_visitor; [cbn; tauto|exact V'].
    + apply ok_visitor; [cbn; tauto|exact V'].
    + apply ok_visitor; [cbn; tauto|exact V'].
    + split; [exact V'|]. constructor; [cbn; tauto|constructor].
    + split; [exact V'|]. constructor; [cbn; tauto|constructor].
  - destruct (co_phase s) eqn:E; try (split; [exact V|constructor]). destruct ok.
    + assert (V' : ok_core cf (with_phase CListen s)) by (split; cbn; auto). destruct (ok_center cf c (with_phase CListen s) V') as (X & Y).
      destruct (deal_center cf c (with_phase CListen s)) as [s' l]. cbn [fst snd] in *. split; [exact X|constructor; [exact P|exact Y]].
    + split; [split; cbn; auto|]. constructor; [right; exact P|constructor].
  - destruct (co_phase s) eqn:E; try (split; [exact V|constructor]). split; [split; cbn; auto|]. constructor; [destruct ok; [exact P|left; exact P]|constructor].
  - destruct (co_queue s); [split; [exact V|constructor]|]. destruct (co_phase s) eqn:E; cbn [fst snd];
      try solve [split; [split; cbn; rewrite ?E; auto|constructor]]; split; [split; cbn; auto|constructor; [exact P|constructor]].
  - destruct (_ && _); cbn [fst snd]; [|split; [exact V|constructor]]. split; [exact V|constructor; [exact I|constructor]].
  - split; [exact V|constructor].
  - destruct (co_phase s) eqn:E; try (split; [exact V|constructor]). destruct (co_stop s); [|split; [exact V|constructor]].
    split; [split; cbn; auto|constructor; [exact I|constructor]].
Qed.
Lemma ok_run cf es : forall s, ok_core cf s -> Forall (ok_out cf) (snd (corun cf s es)).
Proof.
  induction es as [|e es IH]; intros s V; cbn [corun]; [constructor|]. destruct (ok_step cf s e V) as (X & Y).
  destruct (costep cf s e) as [s1 o1]. cbn [fst snd] in *. specialize (IH s1 X). destruct (corun cf s1 es) as [s2 o2]. cbn [snd] in *. apply Forall_app. split; assumption.
Qed.
Lemma ok_all cf es s tr o : corun cf core0 es = (s, tr) -> In o tr -> ok_out cf o.
Proof.
  intros H I. assert (V : ok_core cf core0) by (split; cbn; auto). assert (Q := ok_run cf es core0 V). rewrite H in Q. cbn [snd] in Q.
  rewrite Forall_forall in Q. exact (Q o I).
Qed.

(* what stands behind a served client is a client that came *)
Lemma local_came cf es : forall s, (forall v, In (LClient, v) (co_wait s) -> False) -> (forall v, ~ In (CConn LClient v) es) ->
  forall v, ~ In (XLocal v) (snd (corun cf s es)).
Proof.
  assert (W : forall s e, (forall v, In (LClient, v) (co_wait s) -> False) -> (forall v, e <> CConn LClient v) ->
     (forall v, In (LClient, v) (co_wait (fst (costep cf s e))) -> False) /\ (forall v, ~ In (XLocal v) (snd (costep cf s e)))).
  { assert (T : forall k l c w x, take k l = Some (c, w) -> In x w -> In x l).
    { intros k l. induction l as [|[k' c'] l IH]; intros c w x H J; cbn [take] in H; [discriminate H|]. destruct (lkind_eqb k' k).
      - injection H as <- <-. now right.
      - destruct (take k l) as [[y r]|]; [|discriminate H]. injection H as <- <-. destruct J as [J|J]; [now left|right; exact (IH _ _ _ eq_refl J)]. }
    assert (TK : forall l c w, take LClient l = Some (c, w) -> In (LClient, c) l).
    { induction l as [|[k' c'] l IH]; intros c w H; cbn [take] in H; [discriminate H|]. destruct (lkind_eqb k' LClient) eqn:E.
      - injection H as <- <-. destruct k'; try discriminate E. now left.
      - destruct (take LClient l) as [[y r]|]; [|discriminate H]. injection H as <- <-. right. exact (IH _ _ eq_refl). }
    intros s e N E. destruct e as [k c|k|ok|ok| |j| |]; cbn [costep].
    - split; [|intros v []]. intros v J. cbn in J. apply in_app_iff in J. destruct J as [J|[J|[]]]; [exact (N v J)|]. injection J as -> ->. exact (E v eq_refl).
    - destruct (co_phase s); try solve [split; [exact N|intros v []]]. destruct (take k (co_wait s)) as [[c w]|] eqn:Q; [|split; [exact N|intros v []]].
      assert (N' : forall v, In (LClient, v) w -> False) by (intros v J; exact (N v (T _ _ _ _ _ Q J))).
      assert (DV : forall k, (forall v, In (LClient, v) (co_wait (fst (deal_visitor cf k c (with_wait w s)))) -> False) /\ forall v, ~ In (XLocal v) (snd (deal_visitor cf k c (with_wait w s)))).
      { intro k0. unfold deal_visitor. destruct (filter _ _) as [|[j n] l]; unfold calc_next_id; cbn; split; try exact N'; intros v [J|[]]; discriminate J. }
      destruct k; try exact (DV _).
      + exfalso. exact (N c (TK _ _ _ Q)).
      + destruct (cf_tls cf); [split; [exact N'|intros v []]|]. unfold deal_center. destruct (cf_up cf); cbn; split; try exact N'; [intros v []|intros v [J|[]]; discriminate J].
      + split; [exact N'|intros v [J|[]]; discriminate J].
      + split; [exact N'|intros v [J|[]]; discriminate J].
    - destruct (co_phase s); try solve [split; [exact N|intros v []]]. destruct ok; [|split; [exact N|intros v [J|[]]; discriminate J]].
      unfold deal_center. destruct (cf_up cf); cbn; (split; [exact N|intros v J; repeat destruct J as [J|J]; try discriminate J; contradiction]).
    - destruct (co_phase s); try solve [split; [exact N|intros v []]]. split; [exact N|]. intros v [J|[]]. destruct ok; discriminate J.
    - destruct (co_queue s); [split; [exact N|intros v []]|]. destruct (co_phase s); (split; [exact N|intros v J; cbn in J; repeat destruct J as [J|J]; try discriminate J; contradiction]).
    - destruct (_ && _); (split; [exact N|intros v J; cbn in J; repeat destruct J as [J|J]; try discriminate J; contradiction]).
    - split; [exact N|intros v []].
    - destruct (co_phase s); try solve [split; [exact N|intros v []]]. destruct (co_stop s); (split; [exact N|intros v J; cbn in J; repeat destruct J as [J|J]; try discriminate J; contradiction]). }
  induction es as [|e es IH]; intros s N C v; cbn [corun]; [intros []|].
  destruct (W s e N) as (X & Y); [intros u ->; exact (C u (or_introl eq_refl))|].
  destruct (costep cf s e) as [s1 o1]. cbn [fst snd] in *. specialize (IH s1 X (fun u J => C u (or_intror J)) v).
  destruct (corun cf s1 es) as [s2 o2]. cbn [snd] in *. intro J. apply in_app_iff in J. destruct J as [J|J]; [exact (Y v J)|exact (IH J)].
Qed.

(* ---- numbers of the connections forwarded ---------------------------------------- *)
Definition pending (s : core) : list N := match co_phase s with CRoom _ id => [id] | _ => [] end.
Lemma forwarded_app a b : forwarded (a ++ b) = forwarded a ++ forwarded b.
Proof. apply flat_map_app. Qed.
Lemma every_second_S sid f n : every_second sid f (S n) = every_second sid f n ++ [sid * 2 ^ 32 + (f + 2 * N.of_nat n) mod 2 ^ 32].
Proof. unfold every_second. rewrite seq_S, map_app. reflexivity. Qed.
Definition num_inv (cf : ccfg) (s : core) (got : list N) : Prop :=
  exists n, got ++ pending s = every_second (cf_sid cf) 1 n /\ co_next s = (1 + 2 * N.of_nat n) mod 2 ^ 32.
Lemma num_same cf s s' got out : pending s' = pending s -> co_next s' = co_next s -> forwarded out = [] -> num_inv cf s got -> num_inv cf s' (got ++ forwarded out).
Proof. intros A B -> (n & X & Y). exists n. rewrite A, B, app_nil_r. auto. Qed.
Lemma num_step cf s e got : num_inv cf s got -> num_inv cf (fst (costep cf s e)) (got ++ forwarded (snd (costep cf s e))).
Proof.
  intro V.
  assert (Z : forall s' out, pending s' = pending s -> co_next s' = co_next s -> forwarded out = [] -> num_inv cf s' (got ++ forwarded out)) by (intros; eapply num_same; eauto).
  destruct e as [k c|k|ok|ok| |j| |]; cbn [costep].
  - apply Z; reflexivity.
  - destruct (co_phase s) eqn:P; try (apply Z; reflexivity). destruct (take k (co_wait s)) as [[c w]|]; [|apply Z; reflexivity].
    assert (PN : pending s = []) by (unfold pending; rewrite P; reflexivity).
    assert (DV : forall k, num_inv cf (fst (deal_visitor cf k c (with_wait w s))) (got ++ forwarded (snd (deal_visitor cf k c (with_wait w s))))).
    { intro k0. unfold deal_visitor. destruct (filter _ _) as [|[j n] l]; unfold calc_next_id; apply Z; try reflexivity; rewrite PN; reflexivity. }
    destruct k; try exact (DV _); try (apply Z; reflexivity).
    + unfold deal_client. destruct (cf_tunnel cf); [|apply Z; [rewrite PN|..]; reflexivity].
      destruct V as (n & X & Y). rewrite PN, app_nil_r in X. unfold calc_next_id. cbn [co_next co_queue with_wait].
      assert (G : got ++ [calc_sock_map (cf_sid cf) (co_next s)] = every_second (cf_sid cf) 1 (S n)).
      { rewrite every_second_S, X, Y. reflexivity. }
      assert (M : (co_next s + 2) mod 4294967296 = (1 + 2 * N.of_nat (S n)) mod 2 ^ 32).
      { rewrite Y. change 4294967296 with (2 ^ 32). rewrite N.add_mod_idemp_l by discriminate. f_equal. lia. }
      destruct (room <=? co_queue s)%nat; cbn [fst snd].
      * exists (S n). cbn [pending co_phase with_phase forwarded flat_map co_next]. rewrite app_nil_r. auto.
      * exists (S n). cbn [pending co_phase with_phase forwarded flat_map co_next]. rewrite !app_nil_r. auto.
    + destruct (cf_tls cf); [apply Z; [rewrite PN|..]; reflexivity|]. unfold deal_center. destruct (cf_up cf); apply Z; try reflexivity; rewrite PN; reflexivity.
  - destruct (co_phase s) eqn:P; try (apply Z; reflexivity). assert (PN : pending s = []) by (unfold pending; rewrite P; reflexivity).
    destruct ok; [|apply Z; [rewrite PN|..]; reflexivity]. unfold deal_center. destruct (cf_up cf); apply Z; try reflexivity; rewrite PN; reflexivity.
  - destruct (co_phase s) eqn:P; try (apply Z; reflexivity). assert (PN : pending s = []) by (unfold pending; rewrite P; reflexivity).
    apply Z; [rewrite PN; reflexivity|reflexivity|destruct ok; reflexivity].
  - destruct (co_queue s); [apply Z; reflexivity|]. destruct (co_phase s) eqn:P; try (apply Z; [unfold pending; cbn [fst co_phase]; rewrite P|..]; reflexivity).
    destruct V as (m & X & Y). unfold pending in X. rewrite P in X. exists m. cbn [fst snd forwarded flat_map pending with_phase co_phase co_next app]. rewrite app_nil_r. auto.
  - destruct (_ && _); apply Z; reflexivity.
  - apply Z; reflexivity.
  - destruct (co_phase s) eqn:P; try (apply Z; reflexivity). assert (PN : pending s = []) by (unfold pending; rewrite P; reflexivity).
    destruct (co_stop s); apply Z; try reflexivity; rewrite PN; reflexivity.
Qed.
Lemma num_run cf es : forall s got, num_inv cf s got -> num_inv cf (fst (corun cf s es)) (got ++ forwarded (snd (corun cf s es))).
Proof.
  induction es as [|e es IH]; intros s got V; cbn [corun]; [cbn; rewrite app_nil_r; exact V|]. apply (num_step cf s e) in V.
  destruct (costep cf s e) as [s1 o1]. cbn [fst snd] in V. specialize (IH s1 _ V). destruct (corun cf s1 es) as [s2 o2]. cbn [fst snd] in *.
  rewrite forwarded_app, app_assoc. exact IH.
Qed.

Section Role.
  Context (read : text -> option (list pem)) (own_certs : list N) (own_key : N)
          (pair_ok : list N -> N -> bool) (root_ok : N -> bool) (can_bind : saddr -> bool) (reach : text -> bool -> bool).
  Notation start := (proxy_start read own_certs own_key pair_ok root_ok can_bind reach).

  Lemma tunnel_is c b : start c = BOk b -> b_tunnel b = match p_bind c, p_server c with Some _, Some _ => true | _, _ => false end.
  Proof.
    unfold proxy_start. intro H. destruct (get_tls_accept _ _ _ _ _ c); try discriminate H;
      (destruct (p_bind c) as [ab|]; [destruct (p_server c) as [sv|]; [destruct (reach sv _); [|discriminate H]|]|];
       destruct (listens can_bind _); try discriminate H; injection H as <-; reflexivity).
  Qed.

  (* C182: an instance that names a server is not a server itself.  Connections at its
     tunnel port are passed on or closed, visitors are given to no tunnel, and its own
     clients go through its tunnel and are not served on the spot *)
  Theorem C182_passes_on c b sid es s tr sv : start c = BOk b -> p_server c = Some sv -> comes_in b es ->
    corun (ccfg_of c b sid) core0 es = (s, tr) ->
    (forall j v, ~ In (XTunnel j v) tr) /\ (forall k v j id, ~ In (XVisitor k v j id) tr) /\ (forall v, ~ In (XLocal v) tr).
  Proof.
    intros H S C R. assert (O := fun o => ok_all (ccfg_of c b sid) es s tr o R).
    assert (U : cf_up (ccfg_of c b sid) = true) by (cbn; rewrite S; reflexivity).
    split; [|split].
    - intros j v I. apply O in I. cbn [ok_out] in I. congruence.
    - intros k v j id I. apply O in I. cbn [ok_out] in I. congruence.
    - intros v I. assert (T := tunnel_is c b H). rewrite S in T. destruct (p_bind c) as [a|] eqn:B.
      + apply O in I. cbn [ok_out ccfg_of cf_tunnel] in I. congruence.
      + assert (N : forall v, ~ In (CConn LClient v) es).
        { intros u J. apply C in J. destruct J as [J|[J|(a & J)]]; try discriminate J.
          apply (C111_ports read own_certs own_key pair_ok root_ok can_bind reach c b H) in J. destruct J as (J & _). cbn in J. congruence. }
        assert (Q := local_came (ccfg_of c b sid) es core0 (fun v (J : In _ []) => J) N v). rewrite R in Q. exact (Q I).
  Qed.
  (* C182: an instance that names none passes nothing on: it serves its clients on the
     spot, and every connection at its tunnel port is a tunnel, unless TLS is on and the
     handshake fails *)
  Theorem C182_serves c b sid es s tr : start c = BOk b -> p_server c = None ->
    corun (ccfg_of c b sid) core0 es = (s, tr) ->
    (forall v, ~ In (XRelay v) tr) /\ (forall v id, ~ In (XForward v id) tr) /\
    (b_accept b = false -> forall v, ~ In (XSecure v) tr /\ ~ In (XDrop LCenter v) tr).
  Proof.
    intros H S R. assert (O := fun o => ok_all (ccfg_of c b sid) es s tr o R).
    assert (U : cf_up (ccfg_of c b sid) = false) by (cbn; rewrite S; reflexivity).
    assert (T := tunnel_is c b H). rewrite S in T. assert (T' : b_tunnel b = false) by (destruct (p_bind c); exact T).
    split; [|split; [|intros A v; split]].
    - intros v I. apply O in I. cbn [ok_out] in I. congruence.
    - intros v id I. apply O in I. cbn [ok_out ccfg_of cf_tunnel] in I. congruence.
    - intro I. apply O in I. cbn [ok_out ccfg_of cf_tls] in I. congruence.
    - intro I. apply O in I. cbn [ok_out ccfg_of cf_tls] in I. destruct I as [I|I]; congruence.
  Qed.
  (* C182: a client of the instance is never closed unserved *)
  Theorem C182_clients_kept c b sid es s tr : corun (ccfg_of c b sid) core0 es = (s, tr) -> forall v, ~ In (XDrop LClient v) tr.
  Proof. intros R v I. apply (ok_all (ccfg_of c b sid) es s tr _ R) in I. destruct I as [I|[I|[I|[I|[]]]]]; discriminate I. Qed.
  (* C182: the connections sent through the own tunnel have the numbers 1, 3, 5, ... under
     the number of the instance; up to 2^31 of them are all different *)
  Theorem C182_numbers c b sid es s tr : corun (ccfg_of c b sid) core0 es = (s, tr) ->
    forwarded tr = every_second sid 1 (List.length (forwarded tr)) /\
    (N.of_nat (List.length (forwarded tr)) <= 2 ^ 31 -> NoDup (forwarded tr)).
  Proof.
    intro R. assert (V : num_inv (ccfg_of c b sid) core0 []) by (exists 0%nat; split; reflexivity).
    apply (num_run _ es) in V. rewrite R in V. cbn [fst snd app] in V. destruct V as (n & X & _). cbn [ccfg_of cf_sid] in X.
    assert (E : forwarded tr = every_second sid 1 (List.length (forwarded tr))).
    { assert (Q := f_equal (firstn (List.length (forwarded tr))) X). rewrite firstn_app, Nat.sub_diag, firstn_all in Q. cbn [firstn] in Q. rewrite app_nil_r in Q.
      rewrite Q at 1. unfold every_second. rewrite firstn_map. f_equal.
      assert (L : (List.length (forwarded tr) <= n)%nat).
      { apply (f_equal (@List.length N)) in X. unfold every_second in X. rewrite app_length, map_length, seq_length in X. lia. }
      clear - L. set (m := List.length (forwarded tr)) in *. clearbody m. replace n with (m + (n - m))%nat by lia.
      rewrite seq_app, firstn_app, seq_length, Nat.sub_diag. cbn [firstn]. rewrite app_nil_r. apply firstn_all2. rewrite seq_length. lia. }
    split; [exact E|]. intro L. rewrite E. unfold every_second. set (m := List.length (forwarded tr)) in *. clearbody m.
    assert (G : forall l, NoDup l -> (forall i, In i l -> (i < m)%nat) -> NoDup (map (fun i => sid * 2 ^ 32 + (1 + 2 * N.of_nat i) mod 2 ^ 32) l)).
    { induction l as [|i l IH]; intros D B; cbn [map]; [constructor|]. inversion D as [|? ? D1 D2]; subst. constructor.
      - intro J. apply in_map_iff in J. destruct J as (i' & J & K). apply D1. assert (Bi := B i (or_introl eq_refl)). assert (Bi' := B i' (or_intror K)).
        change (2 ^ 31) with 2147483648 in L. change (2 ^ 32) with 4294967296 in J. rewrite !N.mod_small in J by lia. replace i with i' by lia. exact K.
      - apply IH; [exact D2|]. intros x J. apply B. now right. }
    apply G; [apply seq_NoDup|]. intros i J. apply in_seq in J. lia.
  Qed.

  (* C182, full statement: a port for visitors that is open serves them.  False of the code
     in an instance that names a server: whatever the ports and whoever is connected, each
     visitor is closed unserved, one after the other *)
  Theorem C182_visitors_refuted c b sid sv es s tr k a : start c = BOk b -> p_server c = Some sv ->
    visitor_port k -> In (k, a) (b_listen b) -> corun (ccfg_of c b sid) core0 es = (s, tr) ->
    exists rest, arrived k es = closed_unserved k tr ++ rest.
  Proof.
    intros H S K _ R. assert (O := fun o => ok_all (ccfg_of c b sid) es s tr o R).
    destruct (C109_order (ccfg_of c b sid) es s tr k R) as (rest & E). exists rest. rewrite E. f_equal.
    assert (U : cf_up (ccfg_of c b sid) = true) by (cbn; rewrite S; reflexivity). clear E R.
    assert (VK : lkind_eqb LCenter k = false /\ lkind_eqb LClient k = false /\ lkind_eqb LWeb k = false /\ lkind_eqb LStream k = false) by (destruct K as [<-|[<-|[<-|[<-|[]]]]]; repeat split).
    destruct VK as (V1 & V2 & V3 & V4).
    induction tr as [|o tr IH]; [reflexivity|]. cbn [settled closed_unserved flat_map].
    fold (settled k tr). fold (closed_unserved k tr). rewrite (IH (fun o J => O o (or_intror J))). f_equal.
    specialize (O o (or_introl eq_refl)). destruct o; cbn [ok_out] in O; rewrite ?V1, ?V2; try reflexivity; try congruence.
    destruct O as [-> | ->]; rewrite ?V3, ?V4; reflexivity.
  Qed.
End Role.

(* ---- concrete cases ------------------------------------------------------------- *)
Definition rl_addr (p : N) := SAddr (V4 0) p.
Definition rl_conf (sv : option text) := PConf false false false None None None None sv (Some (rl_addr 1)) (Some (rl_addr 2)) (Some (rl_addr 3)) None None None.
Definition rl_start := proxy_start (fun _ => None) [1] 2 (fun _ _ => true) (fun _ => true) (fun _ => true) (fun _ _ => true).
Definition rl_es := [CConn LCenter 5; CAccept LCenter; CDialed true; CConn LHttp 6; CAccept LHttp; CConn LClient 7; CAccept LClient; CConn LClient 8; CAccept LClient].
(* one that passes on and one that serves, with the same connections *)
Example C182_case :
  let b t := Binding false false t false [(LClient, rl_addr 1); (LCenter, rl_addr 2); (LHttp, rl_addr 3)] in
  rl_start (rl_conf (Some (txt "up:1"))) = BOk (b true) /\ rl_start (rl_conf None) = BOk (b false) /\
  comes_in (b true) rl_es /\
  snd (corun (ccfg_of (rl_conf (Some (txt "up:1"))) (b true) 7) core0 rl_es) =
    [XRelay 5; XDrop LHttp 6; XForward 7 (7 * 2 ^ 32 + 1); XForward 8 (7 * 2 ^ 32 + 3)] /\
  snd (corun (ccfg_of (rl_conf None) (b false) 7) core0 rl_es) = [XTunnel 0 5; XVisitor LHttp 6 0 (7 * 2 ^ 32 + 2); XLocal 7; XLocal 8].
Proof.
  cbv zeta. split; [vm_compute; reflexivity|]. split; [vm_compute; reflexivity|]. split; [|split; vm_compute; reflexivity].
  intros k v J. right. right. cbn in J. cbn [b_listen In].
  repeat (destruct J as [J|J]; [try discriminate J; injection J as <- <-; eexists; eauto|]). contradiction.
Qed.
Print Assumptions C182_passes_on.
Print Assumptions C182_serves.
Print Assumptions C182_clients_kept.
Print Assumptions C182_numbers.
Print Assumptions C182_visitors_refuted.
