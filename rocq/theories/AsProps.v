(* C152: a UDP association lives as long as its control connection. *)
From Coq Require Import Lia.
From Coq Require Import String.
From Verif Require Import Base Text AddrModel SocksModel SocksSpec SocksProofs AsModel.
Open Scope N_scope.

Section Props.
  Context (resolve : bytes -> N -> option (list saddr)) (sends replies : saddr -> bytes -> bool).
  Notation run := (asrun resolve sends replies).
  Notation step := (asstep resolve sends replies).

  Lemma asrun_app es : forall s es', run s (es ++ es') = let (s1, o1) := run s es in let (s2, o2) := run s1 es' in (s2, o1 ++ o2).
  Proof.
    induction es as [|e es IH]; intros s es'; cbn [asrun app]; [destruct (run s es'); reflexivity|].
    destruct (step s e) as [s1 o1]. rewrite IH. destruct (run s1 es) as [s2 o2]. destruct (run s2 es') as [s3 o3]. now rewrite app_assoc.
  Qed.
  Lemma over_run es : forall s, as_over s = true -> run s es = (s, []).
  Proof. induction es as [|e es IH]; intros s H; [reflexivity|]. cbn [asrun]. unfold asstep. rewrite H, IH by exact H. reflexivity. Qed.
  (* what never comes back: ended futures, the signal; and it is over once all have ended *)
  Definition sane (s : assoc) : Prop := as_over s = negb (as_tcp s || as_req s || as_res s).
  Record later (s s' : assoc) : Prop := Later {
    lt_tcp : as_tcp s = false -> as_tcp s' = false; lt_req : as_req s = false -> as_req s' = false; lt_res : as_res s = false -> as_res s' = false;
    lt_sig : as_sig s = true -> as_sig s' = true; lt_over : as_over s = true -> as_over s' = true; lt_sane : sane s -> sane s' }.
  Lemma later_refl s : later s s. Proof. now split. Qed.
  Lemma later_trans a b c : later a b -> later b c -> later a c.
  Proof. intros [A1 A2 A3 A4 A5 A6] [B1 B2 B3 B4 B5 B6]. split; auto. Qed.
  Lemma settle_fields s o : as_over s = false -> let r := fst (settle s o) in
    as_tcp r = as_tcp s /\ as_req r = as_req s /\ as_res r = as_res s /\ as_sig r = as_sig s /\ sane r.
  Proof.
    intro O. unfold settle. destruct (as_tcp s) eqn:A, (as_req s) eqn:B, (as_res s) eqn:C; cbn [orb fst];
      (rewrite ?A, ?B, ?C; cbn; unfold sane; rewrite ?A, ?B, ?C, ?O; repeat split; reflexivity).
  Qed.
  Lemma step_later s e : later s (fst (step s e)).
  Proof.
    unfold asstep. destruct (as_over s) eqn:O; [apply later_refl|].
    assert (F : forall x, later x (fst (failed x))) by (intro x; split; reflexivity || (intros; assumption) || auto).
    assert (K : forall s1 o, as_over s1 = false -> (as_tcp s = false -> as_tcp s1 = false) -> (as_req s = false -> as_req s1 = false) -> (as_res s = false -> as_res s1 = false) -> (as_sig s = true -> as_sig s1 = true) -> later s (fst (settle s1 o))).
    { intros s1 o O1 A B C D. destruct (settle_fields s1 o O1) as (Q1 & Q2 & Q3 & Q4 & Q5). split; rewrite ?Q1, ?Q2, ?Q3, ?Q4; auto. congruence. }
    destruct e as [n| |from d|from d| |].
    - destruct (as_tcp s) eqn:T; [|apply later_refl]. destruct (n =? 0); [|apply later_refl]. apply K; cbn; auto.
    - destruct (as_tcp s); [apply F|apply later_refl].
    - destruct (as_req s) eqn:R; cbn [andb]; [|apply later_refl]. destruct (from_peer s from); [|apply later_refl]. cbn [as_tcp as_res as_sig].
      assert (M : later s (Assoc (Some from) (as_tcp s) true (as_res s) (as_sig s) false)) by (split; cbn; try congruence; unfold sane; cbn; rewrite O, R; auto).
      destruct (udp_parse resolve d) as [[[f a] data]| |]; [|exact (later_trans _ _ _ M (F _))|exact (later_trans _ _ _ M (F _))].
      destruct (negb (f =? 0)); [apply K; cbn; auto; congruence|]. destruct (sends a data); [exact M|exact (later_trans _ _ _ M (F _))].
    - destruct (as_res s); [|apply later_refl]. destruct (as_peer s); [|apply F]. destruct (replies _ _); [apply later_refl|apply F].
    - destruct (as_sig s) eqn:G; cbn [andb]; [|apply later_refl]. destruct (as_req s); [|apply later_refl]. apply K; cbn; auto; congruence.
    - destruct (as_sig s) eqn:G; cbn [andb]; [|apply later_refl]. destruct (as_res s); [|apply later_refl]. apply K; cbn; auto; congruence.
  Qed.
  Lemma run_later es : forall s, later s (fst (run s es)).
  Proof.
    induction es as [|e es IH]; intro s; [apply later_refl|]. cbn [asrun]. assert (Q := step_later s e). destruct (step s e) as [s1 o1]. specialize (IH s1).
    destruct (run s1 es). exact (later_trans _ _ _ Q IH).
  Qed.
  Lemma sane_run es : sane (fst (run assoc0 es)).
  Proof. apply (lt_sane _ _ (run_later es assoc0)). reflexivity. Qed.

  (* C152: when the control connection is closed the association ends as soon as both
     directions have looked at their channel, and then nothing is relayed any more *)
  Lemma over_fields s : sane s -> as_over s = true -> as_tcp s = false /\ as_req s = false /\ as_res s = false.
  Proof. unfold sane. intros H O. rewrite O in H. symmetry in H. apply negb_true_iff in H. apply orb_false_iff in H. destruct H as [H ->]. apply orb_false_iff in H. destruct H as [-> ->]. auto. Qed.
  Lemma eof_step s : sane s -> let r := fst (step s (AsTcp 0)) in as_tcp r = false /\ (as_tcp s = true -> as_sig r = true).
  Proof.
    intro H. cbv zeta. unfold asstep. destruct (as_over s) eqn:O; [destruct (over_fields s H O) as (A & _); cbn [fst]; split; [exact A|congruence]|].
    destruct (as_tcp s) eqn:T; [|cbn [fst]; split; [exact T|congruence]]. rewrite N.eqb_refl.
    destruct (settle_fields (Assoc (as_peer s) false (as_req s) (as_res s) true false) [] eq_refl) as (A & _ & _ & B & _). cbn in *. auto.
  Qed.
  Definition told (s : assoc) : Prop := as_tcp s = false -> as_sig s = true \/ as_over s = true.
  Lemma told_step s e : sane s -> told s -> told (fst (step s e)).
  Proof.
    intros SA H. unfold asstep. destruct (as_over s) eqn:O; [exact H|].
    assert (F : forall x, told (fst (failed x))) by (intros x _; right; reflexivity).
    assert (K : forall s1 o, as_over s1 = false -> told s1 -> told (fst (settle s1 o))).
    { intros s1 o O1 T1. destruct (settle_fields s1 o O1) as (Q1 & _ & _ & Q4 & _). unfold told in *. rewrite Q1, Q4. intro X. destruct (T1 X); [auto|congruence]. }
    assert (G : forall x, as_tcp x = as_tcp s -> as_sig x = as_sig s -> told x) by (intros x A B C; rewrite A in C; destruct (H C) as [D|D]; [left; congruence|congruence]).
    destruct e as [n| |from d|from d| |].
    - destruct (as_tcp s) eqn:T; [|exact H]. destruct (n =? 0); [|exact H]. apply K; [reflexivity|intros _; now left].
    - destruct (as_tcp s); [apply F|exact H].
    - destruct (as_req s && from_peer s from); [|exact H]. destruct (udp_parse resolve d) as [[[f a] data]| |]; [|apply F|apply F].
      destruct (negb (f =? 0)); [apply K; [reflexivity|now apply G]|]. destruct (sends a data); [now apply G|apply F].
    - destruct (as_res s); [|exact H]. destruct (as_peer s); [|apply F]. destruct (replies _ _); [exact H|apply F].
    - destruct (as_sig s) eqn:Z; cbn [andb]; [|exact H]. destruct (as_req s); [|exact H]. apply K; [reflexivity|intros _; now left].
    - destruct (as_sig s) eqn:Z; cbn [andb]; [|exact H]. destruct (as_res s); [|exact H]. apply K; [reflexivity|intros _; now left].
  Qed.
  Lemma told_run es : forall s, sane s -> told s -> told (fst (run s es)).
  Proof.
    induction es as [|e es IH]; intros s SA H; [exact H|]. cbn [asrun]. assert (Q := told_step s e SA H). assert (L := lt_sane _ _ (step_later s e) SA). destruct (step s e) as [s1 o1].
    specialize (IH s1 L Q). destruct (run s1 es). exact IH.
  Qed.
  Lemma req_sig s : sane s -> as_sig s = true \/ as_over s = true -> as_req (fst (step s AsReqSig)) = false.
  Proof.
    intros SA H. unfold asstep. destruct (as_over s) eqn:O; [apply (over_fields s SA O)|]. destruct H as [H|H]; [|discriminate]. rewrite H. cbn [andb].
    destruct (as_req s) eqn:R; [|exact R]. destruct (settle_fields (Assoc (as_peer s) (as_tcp s) false (as_res s) true false) [] eq_refl) as (_ & A & _). exact A.
  Qed.
  Lemma res_sig s : sane s -> as_sig s = true \/ as_over s = true -> as_res (fst (step s AsResSig)) = false.
  Proof.
    intros SA H. unfold asstep. destruct (as_over s) eqn:O; [apply (over_fields s SA O)|]. destruct H as [H|H]; [|discriminate]. rewrite H. cbn [andb].
    destruct (as_res s) eqn:R; [|exact R]. destruct (settle_fields (Assoc (as_peer s) (as_tcp s) (as_req s) false true false) [] eq_refl) as (_ & _ & A & _). exact A.
  Qed.
  Lemma fst_app s a b : fst (run s (a ++ b)) = fst (run (fst (run s a)) b).
  Proof. rewrite asrun_app. destruct (run s a) as [s1 o1]. destruct (run s1 b) eqn:E. cbn. now rewrite E. Qed.
  Lemma fst_cons s e b : fst (run s (e :: b)) = fst (run (fst (step s e)) b).
  Proof. cbn [asrun]. destruct (step s e) as [s1 o1]. destruct (run s1 b) eqn:E. cbn. now rewrite E. Qed.
  Theorem C152_ends es1 es2 rest : In AsReqSig es2 -> In AsResSig es2 ->
    let s := fst (run assoc0 (es1 ++ AsTcp 0 :: es2)) in as_over s = true /\ snd (run s rest) = [].
  Proof.
    intros I1 I2 s. assert (O : as_over s = true); [|split; [exact O|rewrite over_run by exact O; reflexivity]].
    assert (SA : sane s) by apply sane_run.
    set (s0 := fst (run assoc0 es1)). assert (S0 : sane s0) by apply sane_run. assert (T0 : told s0) by (apply told_run; [reflexivity|discriminate]).
    set (s1 := fst (step s0 (AsTcp 0))).
    assert (S1 : sane s1) by (apply (lt_sane _ _ (step_later s0 (AsTcp 0)) S0)).
    assert (T1 : as_tcp s1 = false) by apply (eof_step s0 S0).
    assert (T1' : told s1) by (apply told_step; assumption).
    assert (E : s = fst (run s1 es2)) by (unfold s, s1, s0; now rewrite fst_app, fst_cons).
    assert (R : forall e es, In e es -> forall s, sane s -> as_sig s = true \/ as_over s = true ->
      exists a b, es = a ++ e :: b /\ sane (fst (run s a)) /\ (as_sig (fst (run s a)) = true \/ as_over (fst (run s a)) = true)).
    { intros e es J s' SS H. apply in_split in J. destruct J as (a & b & ->). exists a, b. split; [reflexivity|]. assert (L := run_later a s'). split; [apply (lt_sane _ _ L SS)|].
      destruct H as [H|H]; [left; apply (lt_sig _ _ L H)|right; apply (lt_over _ _ L H)]. }
    assert (Q := T1' T1).
    assert (X1 : as_req s = false).
    { destruct (R _ _ I1 s1 S1 Q) as (a & b & Eb & A & B). rewrite E, Eb, fst_app, fst_cons. apply (lt_req _ _ (run_later b _)). apply req_sig; assumption. }
    assert (X2 : as_res s = false).
    { destruct (R _ _ I2 s1 S1 Q) as (a & b & Eb & A & B). rewrite E, Eb, fst_app, fst_cons. apply (lt_res _ _ (run_later b _)). apply res_sig; assumption. }
    assert (X3 : as_tcp s = false) by (rewrite E; apply (lt_tcp _ _ (run_later es2 s1) T1)).
    unfold sane in SA. rewrite X1, X2, X3 in SA. exact SA.
  Qed.
  (* what the client writes on the control connection has no effect *)
  Theorem C152_control_bytes n s : n <> 0 -> step s (AsTcp n) = (s, []).
  Proof. intro H. unfold asstep. destruct (as_over s), (as_tcp s); try reflexivity. apply N.eqb_neq in H. now rewrite H. Qed.

  (* C152: while the control connection is open, every datagram of the client is sent to its
     target and every answer is sent to the client, as long as the datagrams are whole (not
     fragments), well formed and can be sent, and no answer comes before the first request *)
  Definition client_sends (client : saddr) (e : asev) (o : list asout) : Prop :=
    match e with
    | AsTcp n => n <> 0 /\ o = []
    | AsIn from d => from = client /\ exists r1 r2 b a data, asks resolve b a /\ d = [r1; r2; 0] ++ b ++ data /\ sends a data = true /\ o = [AsTarget a data]
    | AsOut from d => let x := [0; 0; 0] ++ encode_addr from ++ d in replies client x = true /\ o = [AsClient client x]
    | AsReqSig | AsResSig => o = []
    | AsTcpErr => False
    end.
  Theorem C152_relays_partial client d0 es outs : client_sends client (AsIn client d0) (hd [] outs) -> Forall2 (client_sends client) es (tl outs) -> outs <> [] ->
    snd (run assoc0 (AsIn client d0 :: es)) = List.concat outs /\ as_over (fst (run assoc0 (AsIn client d0 :: es))) = false.
  Proof.
    intros H F NE. destruct outs as [|o0 outs]; [contradiction|]. cbn [hd tl] in *.
    assert (IN : forall s d o, client_sends client (AsIn client d) o -> as_over s = false -> as_req s = true -> (as_peer s = None \/ as_peer s = Some client) ->
      step s (AsIn client d) = (Assoc (Some client) (as_tcp s) true (as_res s) (as_sig s) false, o)).
    { intros s d o (_ & r1 & r2 & b & a & data & A & -> & S1 & ->) O R P. unfold asstep. rewrite O, R. cbn [andb].
      assert (FP : from_peer s client = true) by (unfold from_peer; destruct P as [-> | ->]; [reflexivity|apply saddr_eqb; reflexivity]). rewrite FP.
      rewrite (udp_parse_ok resolve r1 r2 0 b a data A). cbn [negb N.eqb]. rewrite S1. reflexivity. }
    set (s1 := Assoc (Some client) true true true false false).
    assert (G : snd (run s1 es) = List.concat outs /\ fst (run s1 es) = s1).
    { clear d0 o0 H NE. induction F as [|e o es outs E F IH]; [split; reflexivity|]. cbn [asrun List.concat].
      assert (Q : step s1 e = (s1, o)).
      { destruct e as [n| |from d|from d| |].
        - destruct E as (N0 & ->). apply C152_control_bytes, N0.
        - destruct E.
        - assert (from = client) as -> by apply E. rewrite (IN s1 d o E eq_refl eq_refl (or_intror eq_refl)). reflexivity.
        - destruct E as (RP & ->). unfold asstep, s1. cbn [as_over as_res as_peer]. rewrite RP. reflexivity.
        - unfold client_sends in E. subst o. reflexivity.
        - unfold client_sends in E. subst o. reflexivity. }
      rewrite Q. destruct IH as (A & B). destruct (run s1 es) as [s2 o2]. cbn [fst snd] in *. subst. split; reflexivity. }
    cbn [asrun List.concat]. rewrite (IN assoc0 d0 o0 H eq_refl eq_refl (or_introl eq_refl)). cbn [assoc0 as_tcp as_res as_sig]. fold s1.
    destruct G as (G1 & G2). destruct (run s1 es) as [s2 o2]. cbn [fst snd] in *. subst. split; reflexivity.
  Qed.
  (* false of the code otherwise: after one fragment nothing from the client is sent on,
     while the control connection stays open, *)
  Theorem C152_fragment_refuted client r1 r2 f b a data es es' : f <> 0 -> asks resolve b a ->
    let s := fst (run assoc0 es) in as_tcp s = true -> as_req s = true -> from_peer s client = true ->
    let s1 := fst (step s (AsIn client ([r1; r2; f] ++ b ++ data))) in
    as_over s1 = false /\ forall to x, ~ In (AsTarget to x) (snd (run s1 es')).
  Proof.
    intros F A s T R P s1. assert (O : as_over s = false) by (assert (Q := sane_run es); fold s in Q; unfold sane in Q; rewrite T in Q; exact Q).
    assert (E : s1 = Assoc (Some client) true false (as_res s) (as_sig s) false).
    { unfold s1, asstep. rewrite O, R, P. cbn [andb]. rewrite (udp_parse_ok resolve r1 r2 f b a data A). apply N.eqb_neq in F. rewrite F. cbn [negb as_tcp as_res as_sig]. rewrite T. reflexivity. }
    split; [now rewrite E|]. assert (D : as_req s1 = false) by now rewrite E. clearbody s1. clear E. revert s1 D. induction es' as [|e es' IH]; intros s1 D to x I; [destruct I|].
    cbn [asrun] in I. assert (D' := lt_req _ _ (step_later s1 e) D).
    assert (NO : forall to x, ~ In (AsTarget to x) (snd (step s1 e))).
    { clear -D. intros to x. assert (Fa : forall s, ~ In (AsTarget to x) (snd (failed s))) by (intros s [I|I]; [discriminate|destruct I]).
      assert (Se : forall s, ~ In (AsTarget to x) (snd (settle s []))) by (intros s; unfold settle; destruct (_ || _); [intros I; exact I|intros [I|I]; [discriminate|destruct I]]).
      unfold asstep. rewrite D. destruct (as_over s1); [intros I; exact I|]. destruct e as [n| |from d|from d| |]; cbn [andb].
      - destruct (as_tcp s1); [|intros I; exact I]. destruct (n =? 0); [apply Se|intros I; exact I].
      - destruct (as_tcp s1); [apply Fa|intros I; exact I].
      - intros I; exact I.
      - destruct (as_res s1); [|intros I; exact I]. destruct (as_peer s1); [|apply Fa]. destruct (replies _ _); [intros [I|I]; [discriminate|destruct I]|apply Fa].
      - rewrite andb_false_r. intros I; exact I.
      - destruct (as_sig s1 && as_res s1); [apply Se|intros I; exact I]. }
    destruct (step s1 e) as [s2 o1]. cbn [fst snd] in *. specialize (IH s2 D' to x). destruct (run s2 es') as [s3 o2]. cbn [snd] in *. apply in_app_iff in I. destruct I as [I|I]; [exact (NO _ _ I)|auto].
  Qed.
  (* and a request for an IPv6 target ends the association, the sending socket being an IPv4
     one *)
  Theorem C152_ipv6_refuted client r1 r2 b a data es : (forall a d, match sa_ip a with V6 _ => sends a d = false | V4 _ => True end) -> asks resolve b a -> (exists n, sa_ip a = V6 n) ->
    let s := fst (run assoc0 es) in as_req s = true -> from_peer s client = true ->
    as_over (fst (step s (AsIn client ([r1; r2; 0] ++ b ++ data)))) = true.
  Proof.
    intros V A (n & Q) s R P. unfold asstep. destruct (as_over s) eqn:O; [exact O|]. rewrite R, P. cbn [andb]. rewrite (udp_parse_ok resolve r1 r2 0 b a data A). cbn [N.eqb negb].
    assert (X := V a data). rewrite Q in X. rewrite X. reflexivity.
  Qed.

  (* a socket bound at sock takes the datagrams sent to a: at one address or at all of IPv4 *)
  Definition takes_for (sock a : saddr) : Prop :=
    sa_port a = sa_port sock /\ exists n m, sa_ip a = V4 n /\ sa_ip sock = V4 m /\ (m = 0 \/ m = n).
  (* the client is told success and the configured address with the port of the socket, which
     takes the datagrams sent there: proved of IPv4 ... *)
  Theorem C152_told_partial ip port : addr_ok (SAddr ip port) -> let (told, sock) := assoc_start ip port in
    exists b, told = [5; 0; 0] ++ b /\ asks resolve b (SAddr ip port) /\ ((exists n, ip = V4 n) -> takes_for sock (SAddr ip port)).
  Proof.
    intros A. unfold assoc_start. exists (encode_addr (SAddr ip port)). split; [reflexivity|]. split; [apply encode_asks; exact A|].
    intros (n & ->). split; [reflexivity|]. exists n, 0. auto.
  Qed.
  (* ... and false of IPv6: the client is told an address where no datagram is taken. *)
  Theorem C152_told_refuted n port : addr_ok (SAddr (V6 n) port) -> let (told, sock) := assoc_start (V6 n) port in
    exists b, told = [5; 0; 0] ++ b /\ asks resolve b (SAddr (V6 n) port) /\ ~ takes_for sock (SAddr (V6 n) port).
  Proof.
    intros A. unfold assoc_start. exists (encode_addr (SAddr (V6 n) port)). split; [reflexivity|]. split; [apply encode_asks; exact A|].
    intros (_ & x & m & E & _). discriminate E.
  Qed.
  (* C152: how an association ends.  Something goes wrong: the control connection fails, the
     client sends what is no datagram of the protocol or one that cannot be sent, an answer comes
     before the first request or cannot be sent *)
  Definition trouble (s : assoc) (e : asev) : Prop :=
    match e with
    | AsTcpErr => True
    | AsIn _ d => match udp_parse resolve d with Ok (f, a, data) => f = 0 /\ sends a data = false | _ => True end
    | AsOut from d => match as_peer s with Some p => replies p ([0; 0; 0] ++ encode_addr from ++ d) = false | None => True end
    | AsTcp _ | AsReqSig | AsResSig => False
    end.
  Definition no_end (l : list asout) : Prop := forall ok, ~ In (AsEnd ok) l.
  Definition step_end (s : assoc) (e : asev) : Prop :=
    (as_over (fst (step s e)) = false /\ no_end (snd (step s e)) /\ (as_tcp s = true -> e <> AsTcp 0 -> as_tcp (fst (step s e)) = true)) \/
    (as_over (fst (step s e)) = true /\ snd (step s e) = [AsEnd true] /\ ~ trouble s e /\ (as_tcp s = true -> e = AsTcp 0)) \/
    (as_over (fst (step s e)) = true /\ snd (step s e) = [AsEnd false] /\ trouble s e).
  Lemma step_end_ok s e : sane s -> as_over s = false -> step_end s e.
  Proof.
    intros SA O. unfold step_end, asstep. rewrite O.
    assert (Same : forall e', (as_over s = false /\ no_end [] /\ (as_tcp s = true -> e' <> AsTcp 0 -> as_tcp s = true))) by (intro e'; split; [exact O|split; [intros ok []|auto]]).
    assert (K : forall s1, as_over s1 = false -> ~ trouble s e -> (as_tcp s = true -> e <> AsTcp 0 -> as_tcp s1 = true) -> (as_tcp s1 = false -> as_tcp s = true -> e = AsTcp 0) ->
      (as_over (fst (settle s1 [])) = false /\ no_end (snd (settle s1 [])) /\ (as_tcp s = true -> e <> AsTcp 0 -> as_tcp (fst (settle s1 [])) = true)) \/
      (as_over (fst (settle s1 [])) = true /\ snd (settle s1 []) = [AsEnd true] /\ ~ trouble s e /\ (as_tcp s = true -> e = AsTcp 0))).
    { intros s1 O1 T A B. unfold settle. destruct (as_tcp s1 || as_req s1 || as_res s1) eqn:Q; cbn [fst snd app as_over as_tcp].
      - left. split; [exact O1|]. split; [intros ok []|exact A].
      - right. split; [reflexivity|]. split; [reflexivity|]. split; [exact T|]. intro X. apply B; [|exact X].
        apply orb_false_iff in Q. destruct Q as [Q _]. now apply orb_false_iff in Q. }
    destruct e as [n| |from d|from d| |].
    - destruct (as_tcp s) eqn:T; [|left; cbn [fst snd]; split; [exact O|split; [intros ok []|congruence]]].
      destruct (N.eqb_spec n 0) as [->|NZ]; [|left; cbn [fst snd]; split; [exact O|split; [intros ok []|auto]]].
      destruct (K (Assoc (as_peer s) false (as_req s) (as_res s) true false) eq_refl (fun x => x)) as [H|H]; cbn; auto; try congruence.
    - destruct (as_tcp s) eqn:T; [right; right; cbn; auto|left; cbn [fst snd]; split; [exact O|split; [intros ok []|congruence]]].
    - destruct (as_req s && from_peer s from) eqn:Q; [|left; apply Same]. cbn [as_tcp as_res as_sig].
      destruct (udp_parse resolve d) as [[[f a] data]| |] eqn:P; [|right; right; cbn; rewrite P; auto|right; right; cbn; rewrite P; auto].
      destruct (N.eqb_spec f 0) as [->|NZ]; cbn [negb].
      + destruct (sends a data) eqn:D.
        * left. cbn [fst snd as_over as_tcp]. split; [reflexivity|]. split; [intros ok [I|[]]; discriminate I|auto].
        * right. right. cbn. rewrite P. auto.
      + destruct (K (Assoc (Some from) (as_tcp s) false (as_res s) (as_sig s) false)) as [H|H]; cbn [trouble as_tcp as_over]; auto; try congruence.
        rewrite P. intros [X _]. contradiction.
    - destruct (as_res s); [|left; apply Same]. destruct (as_peer s) as [p|] eqn:P; [|right; right; cbn; rewrite P; auto].
      destruct (replies p _) eqn:R; [|right; right; cbn; rewrite P; auto].
      left. cbn [fst snd]. split; [exact O|]. split; [intros ok [I|[]]; discriminate I|auto].
    - destruct (as_sig s && as_req s) eqn:Q; [|left; apply Same].
      destruct (K (Assoc (as_peer s) (as_tcp s) false (as_res s) true false) eq_refl (fun x => x)) as [H|H]; cbn; auto; congruence.
    - destruct (as_sig s && as_res s) eqn:Q; [|left; apply Same].
      destruct (K (Assoc (as_peer s) (as_tcp s) (as_req s) false true false) eq_refl (fun x => x)) as [H|H]; cbn; auto; congruence.
  Qed.
  (* The end is reported once and last, and is good exactly if nothing went wrong; it is then the
     client that ended it, by closing the control connection. *)
  Theorem C152_outcome es : (as_over (fst (run assoc0 es)) = true <-> exists ok, In (AsEnd ok) (snd (run assoc0 es))) /\
    forall ok, In (AsEnd ok) (snd (run assoc0 es)) ->
    exists o es1 e es2, snd (run assoc0 es) = o ++ [AsEnd ok] /\ no_end o /\ es = es1 ++ e :: es2 /\
      (forall x e' y, es1 = x ++ e' :: y -> as_over (fst (run assoc0 x)) = false) /\
      (ok = true <-> ~ trouble (fst (run assoc0 es1)) e) /\ (ok = true -> In (AsTcp 0) (es1 ++ [e])).
  Proof.
    assert (G : forall s, sane s -> as_over s = false -> forall es,
      (as_over (fst (run s es)) = false /\ no_end (snd (run s es))) \/
      exists ok o es1 e es2, as_over (fst (run s es)) = true /\ snd (run s es) = o ++ [AsEnd ok] /\ no_end o /\ es = es1 ++ e :: es2 /\
        (forall x e' y, es1 = x ++ e' :: y -> as_over (fst (run s x)) = false) /\
        (ok = true <-> ~ trouble (fst (run s es1)) e) /\ (ok = true -> as_tcp s = true -> In (AsTcp 0) (es1 ++ [e]))).
    { intros s SA O es'. revert s SA O. induction es' as [|e es' IH]; intros s SA O; [left; split; [exact O|intros ok []]|].
      assert (SA1 := lt_sane _ _ (step_later s e) SA). cbn [asrun].
      destruct (step_end_ok s e SA O) as [(O1 & NE & T)|[(O1 & Q & NT & C)|(O1 & Q & T)]].
      - destruct (step s e) as [s1 o1] eqn:E1. cbn [fst snd] in *. destruct (IH s1 SA1 O1) as [(A & B)|(ok & o & es1 & e1 & es2 & A & B & C & D & F & H & I)].
        + left. destruct (run s1 es') as [s2 o2]. cbn [fst snd] in *. split; [exact A|]. intros ok J. apply in_app_iff in J. destruct J as [J|J]; [exact (NE _ J)|exact (B _ J)].
        + right. exists ok, (o1 ++ o), (e :: es1), e1, es2. assert (R1 : forall l, fst (run s (e :: l)) = fst (run s1 l)) by (intro l; rewrite fst_cons, E1; reflexivity).
          destruct (run s1 es') as [s2 o2]. cbn [fst snd] in *. split; [exact A|]. split; [rewrite B; apply app_assoc|].
          split; [intros k J; apply in_app_iff in J; destruct J as [J|J]; [exact (NE _ J)|exact (C _ J)]|]. split; [now rewrite D|].
          split; [|split].
          * intros [|e2 x] e' y X; [exact O|]. injection X as <- X. rewrite R1. exact (F x e' y X).
          * rewrite R1. exact H.
          * intros Y Z. cbn [app In]. destruct (as_tcp s1) eqn:T1; [right; exact (I Y eq_refl)|].
            left. destruct e as [[|n]| |from d|from d| |]; try reflexivity; exfalso; enough (false = true) by discriminate; apply T; auto; discriminate.
      - right. exists true, [], [], e, es'. assert (V := over_run es' _ O1). destruct (step s e) as [s1 o1]. cbn [fst snd] in *. rewrite V. subst o1.
        split; [exact O1|]. split; [reflexivity|]. split; [intros k []|]. split; [reflexivity|]. split; [intros [|? x] e' y X; discriminate X|].
        split; [split; auto|]. intros _ Z. cbn. left. exact (C Z).
      - right. exists false, [], [], e, es'. assert (V := over_run es' _ O1). destruct (step s e) as [s1 o1]. cbn [fst snd] in *. rewrite V. subst o1.
        split; [exact O1|]. split; [reflexivity|]. split; [intros k []|]. split; [reflexivity|]. split; [intros [|? x] e' y X; discriminate X|].
        split; [split; [discriminate|intro X; contradiction]|]. discriminate. }
    destruct (G assoc0 eq_refl eq_refl es) as [(A & B)|(ok & o & es1 & e1 & es2 & A & B & C & D & F & H & I)].
    - split; [rewrite A; split; [discriminate|intros [ok J]; destruct (B _ J)]|]. intros ok J. destruct (B _ J).
    - assert (U : forall k, In (AsEnd k) (snd (run assoc0 es)) -> k = ok).
      { intros k J. rewrite B in J. apply in_app_iff in J. destruct J as [J|[J|[]]]; [destruct (C _ J)|now injection J]. }
      split; [rewrite A; split; [intros _; exists ok; rewrite B; apply in_or_app; right; left; reflexivity|reflexivity]|].
      intros k J. rewrite (U k J). exists o, es1, e1, es2. repeat split; auto; apply H.
  Qed.
End Props.

Definition demo_client := SAddr (V4 7) 4000.
Definition demo_ask : bytes := [1; 0; 0; 0; 9; 0; 53].
Example C152_demo : let r := asrun (fun _ _ => None) (fun _ _ => true) (fun _ _ => true) assoc0 in
  snd (r [AsIn demo_client ([0; 0; 0] ++ demo_ask ++ [42]); AsTcp 3; AsOut (SAddr (V4 9) 53) [43]; AsTcp 0; AsReqSig; AsResSig; AsIn demo_client ([0; 0; 0] ++ demo_ask ++ [42])]) =
    [AsTarget (SAddr (V4 9) 53) [42]; AsClient demo_client [0; 0; 0; 1; 0; 0; 0; 9; 0; 53; 43]; AsEnd true] /\
  snd (r [AsIn demo_client ([0; 0; 1] ++ demo_ask ++ [42]); AsIn demo_client ([0; 0; 0] ++ demo_ask ++ [42])]) = [] /\
  asks (fun _ _ => None) demo_ask (SAddr (V4 9) 53).
Proof. split; [vm_compute; reflexivity|]. split; [vm_compute; reflexivity|]. apply (asks_v4 _ [0; 0; 0; 9] [0; 53]); reflexivity. Qed.
Example C152_relays_demo : client_sends (fun _ _ => None) (fun _ _ => true) (fun _ _ => true) demo_client (AsIn demo_client ([0; 0; 0] ++ demo_ask ++ [42])) [AsTarget (SAddr (V4 9) 53) [42]].
Proof.
  split; [reflexivity|]. exists 0, 0, demo_ask, (SAddr (V4 9) 53), [42]. split; [apply (asks_v4 _ [0; 0; 0; 9] [0; 53]); reflexivity|]. repeat split.
Qed.
Example C152_ipv6_demo : asks (fun _ _ => None) (4 :: repeat 1 16 ++ [0; 53]) (SAddr (V6 (value (repeat 1 16))) 53).
Proof. apply (asks_v6 _ (repeat 1 16) [0; 53]); reflexivity. Qed.

Example C152_told_demo : addr_ok (SAddr (V4 0x7f000001) 5000) /\ addr_ok (SAddr (V6 1) 5000) /\ fst (assoc_start (V4 0x7f000001) 5000) = [5; 0; 0; 1; 127; 0; 0; 1; 19; 136].
Proof. split; [split; reflexivity|]. split; [split; reflexivity|vm_compute; reflexivity]. Qed.

Example C152_outcome_demo : let r := asrun (fun _ _ => None) (fun _ _ => true) (fun _ _ => true) assoc0 in
  snd (r [AsIn demo_client [0; 0]; AsTcp 0]) = [AsEnd false] /\ snd (r [AsTcp 0; AsReqSig; AsResSig]) = [AsEnd true].
Proof. split; reflexivity. Qed.

Print Assumptions C152_outcome.
Print Assumptions C152_told_partial.
Print Assumptions C152_told_refuted.
Print Assumptions C152_ends.
Print Assumptions C152_control_bytes.
Print Assumptions C152_relays_partial.
Print Assumptions C152_fragment_refuted.
Print Assumptions C152_ipv6_refuted.
