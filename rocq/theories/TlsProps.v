(* C158, C159: certificates of the http section. *)
From Coq Require Import String.
From Verif Require Import Base Text TextOps AddrModel ConfModel TlsModel.
Open Scope N_scope.

(* ---- specification -------------------------------------------------------------------- *)
(* every section of the file can be read *)
Definition readable (l : list item) : Prop := ~ In IBad l.
(* the certificates of a file, in order *)
Definition chain_of (p : option pem) (cs : list N) : Prop :=
  exists l, p = Some (Some l) /\ readable l /\ cs = flat_map (fun x => match x with ICert c => [c] | _ => [] end) l.
(* the one key of a file in the format RSA PRIVATE KEY *)
Definition rsa_key_of (p : option pem) (k : N) : Prop :=
  exists a b, p = Some (Some (a ++ IRsa k :: b)) /\ readable (a ++ b) /\ forall k', ~ In (IRsa k') (a ++ b).
(* the site is configured for TLS *)
Definition wants_tls (s : tsite) : Prop := t_cert s <> None /\ t_key s <> None.
(* the same name, ASCII letters in either case *)
Definition same_letter (a b : N) : Prop := a = b \/ (65 <= a <= 90 /\ b = a + 32) \/ (65 <= b <= 90 /\ a = b + 32).
Definition same_name : text -> text -> Prop := Forall2 same_letter.
(* the name a site is asked for by: its domain, or that of its backends if it has none *)
Definition known_as (s : tsite) : text := match t_domain s with None => t_up s | Some d => d end.
Definition identity (s : tsite) (i : ident) : Prop := chain_of (t_cert s) (fst i) /\ rsa_key_of (t_key s) (snd i).

Lemma low_same a : forall b, low a = low b <-> same_name a b.
Proof.
  unfold low, same_name. induction a as [|x a IH]; intros [|y b]; cbn [map]; split; intros H; try discriminate; try (inversion H; fail); try constructor.
  - injection H as H _. unfold lower, same_letter in *. destruct (N.leb_spec 65 x), (N.leb_spec x 90), (N.leb_spec 65 y), (N.leb_spec y 90); cbn [andb] in H; lia.
  - injection H as _ H. apply IH. exact H.
  - inversion H as [|? ? ? ? H1 H2]; subst. f_equal; [|apply IH; exact H2]. unfold lower, same_letter in *.
    destruct (N.leb_spec 65 x), (N.leb_spec x 90), (N.leb_spec 65 y), (N.leb_spec y 90); cbn [andb]; lia.
Qed.

(* ---- files -------------------------------------------------------------------------- *)
Lemma certs_ok l cs : pem_certs l = Ok cs <-> readable l /\ cs = flat_map (fun x => match x with ICert c => [c] | _ => [] end) l.
Proof.
  unfold readable. revert cs. induction l as [|x l IH]; intros cs.
  - cbn. split; [intros [= <-]; auto|intros (_ & ->); reflexivity].
  - assert (NB : x <> IBad -> ((~ In IBad (x :: l)) <-> ~ In IBad l)) by (intros N; cbn [In]; intuition).
    destruct x; cbn [pem_certs flat_map app].
    + rewrite NB by discriminate. destruct (pem_certs l) as [r|e|]; cbn [rbind].
      * destruct (IH r) as (I1 & I2). destruct (I1 eq_refl) as (R & E). rewrite E. split; [intros [= <-]; auto|intros (_ & ->); reflexivity].
      * split; [discriminate|]. intros (R & _). destruct (IH (flat_map (fun x => match x with ICert c => [c] | _ => [] end) l)) as (_ & I2). discriminate I2. auto.
      * split; [discriminate|]. intros (R & _). destruct (IH (flat_map (fun x => match x with ICert c => [c] | _ => [] end) l)) as (_ & I2). discriminate I2. auto.
    + rewrite NB by discriminate. apply IH.
    + rewrite NB by discriminate. apply IH.
    + rewrite NB by discriminate. apply IH.
    + split; [discriminate|]. intros (N & _). destruct N. left. reflexivity.
Qed.
Lemma rsa_list l ks : pem_rsa l = Ok ks <-> readable l /\ ks = flat_map (fun x => match x with IRsa c => [c] | _ => [] end) l.
Proof.
  unfold readable. revert ks. induction l as [|x l IH]; intros cs.
  - cbn. split; [intros [= <-]; auto|intros (_ & ->); reflexivity].
  - assert (NB : x <> IBad -> ((~ In IBad (x :: l)) <-> ~ In IBad l)) by (intros N; cbn [In]; intuition).
    destruct x; cbn [pem_rsa flat_map app].
    + rewrite NB by discriminate. apply IH.
    + rewrite NB by discriminate. destruct (pem_rsa l) as [r|e|]; cbn [rbind].
      * destruct (IH r) as (I1 & I2). destruct (I1 eq_refl) as (R & E). rewrite E. split; [intros [= <-]; auto|intros (_ & ->); reflexivity].
      * split; [discriminate|]. intros (R & _). destruct (IH (flat_map (fun x => match x with IRsa c => [c] | _ => [] end) l)) as (_ & I2). discriminate I2. auto.
      * split; [discriminate|]. intros (R & _). destruct (IH (flat_map (fun x => match x with IRsa c => [c] | _ => [] end) l)) as (_ & I2). discriminate I2. auto.
    + rewrite NB by discriminate. apply IH.
    + rewrite NB by discriminate. apply IH.
    + split; [discriminate|]. intros (N & _). destruct N. left. reflexivity.
Qed.
Lemma load_certs_ok p cs : load_certs p = Ok cs <-> chain_of p cs.
Proof.
  unfold load_certs, chain_of. destruct p as [[l|]|]; [|split; [discriminate|intros (l & H & _); discriminate]|split; [discriminate|intros (l & H & _); discriminate]].
  rewrite certs_ok. split; [intros (R & E); exists l; auto|intros (l' & [= <-] & R & E); auto].
Qed.
Lemma no_rsa l : flat_map (fun x => match x with IRsa c => [c] | _ => [] end) l = [] <-> forall k, ~ In (IRsa k) l.
Proof.
  induction l as [|x l IH]; cbn [flat_map]; [split; [intros _ k []|reflexivity]|].
  destruct x; cbn [app In]; try (rewrite IH; split; [intros H k0 [X|X]; [discriminate|exact (H k0 X)]|intros H k0 X; exact (H k0 (or_intror X))]).
  split; [discriminate|]. intros H. destruct (H k). left. reflexivity.
Qed.
Lemma load_keys_ok p k : load_keys p = Ok k <-> rsa_key_of p k.
Proof.
  unfold load_keys, rsa_key_of. destruct p as [[l|]|]; [|split; [discriminate|intros (a & b & H & _); discriminate]|split; [discriminate|intros (a & b & H & _); discriminate]].
  split.
  - destruct (pem_rsa l) as [ks|e|] eqn:E; cbn [rbind]; try discriminate. apply rsa_list in E. destruct E as (R & E). destruct ks as [|k0 [|k1 ks]]; try discriminate. intros [= <-].
    revert R E. induction l as [|x l IH]; cbn [flat_map]; [discriminate|]. intros R E.
    assert (Rl : readable l) by (intros X; apply R; right; exact X).
    destruct x; cbn [app] in E.
    + destruct (IH Rl E) as (a & b & Q & A & B). injection Q as ->. exists (ICert c :: a), b. split; [reflexivity|]. split; [intros [X|X]; [discriminate|exact (A X)]|intros k' [X|X]; [discriminate|exact (B k' X)]].
    + injection E as <- E. exists [], l. split; [reflexivity|]. split; [exact Rl|]. apply no_rsa. symmetry. exact E.
    + destruct (IH Rl E) as (a & b & Q & A & B). injection Q as ->. exists (IPkcs8 k :: a), b. split; [reflexivity|]. split; [intros [X|X]; [discriminate|exact (A X)]|intros k' [X|X]; [discriminate|exact (B k' X)]].
    + destruct (IH Rl E) as (a & b & Q & A & B). injection Q as ->. exists (IEc k :: a), b. split; [reflexivity|]. split; [intros [X|X]; [discriminate|exact (A X)]|intros k' [X|X]; [discriminate|exact (B k' X)]].
    + destruct R. left. reflexivity.
  - intros (a & b & [= ->] & R & N).
    assert (E : pem_rsa (a ++ IRsa k :: b) = Ok [k]).
    { apply rsa_list. split.
      - intros X. apply in_app_or in X. apply R, in_or_app. destruct X as [X|[X|X]]; [left; exact X|discriminate|right; exact X].
      - rewrite flat_map_app. cbn [flat_map]. assert (Na : flat_map (fun x => match x with IRsa c => [c] | _ => [] end) a = []) by (apply no_rsa; intros k' X; apply (N k'), in_or_app; left; exact X).
        assert (Nb : flat_map (fun x => match x with IRsa c => [c] | _ => [] end) b = []) by (apply no_rsa; intros k' X; apply (N k'), in_or_app; right; exact X).
        rewrite Na, Nb. reflexivity. }
    rewrite E. reflexivity.
Qed.
Lemma tls_site_ok s : tls_site s = true <-> wants_tls s.
Proof. unfold tls_site, wants_tls. destruct (t_cert s), (t_key s); split; intros H; try discriminate; try reflexivity; try (split; discriminate); destruct H as (A & B); try (destruct A; reflexivity); destruct B; reflexivity. Qed.

Section Thms.
  Context (key_ok : N -> bool) (dns : text -> bool) (covers : N -> text -> bool) (pair_ok : ident -> bool).
  Notation start := (tls_start key_ok dns covers pair_ok).
  Notation loop := (site_loop key_ok dns covers).

  (* a site that can be served by name *)
  Definition usable (s : tsite) (i : ident) : Prop :=
    identity s i /\ key_ok (snd i) = true /\ dns (known_as s) = true /\ exists c cs, fst i = c :: cs /\ covers c (low (known_as s)) = true.

  Lemma add_ok n i m m' : sni_add dns covers n i m = Ok m' <-> dns n = true /\ (exists c cs, fst i = c :: cs /\ covers c (low n) = true) /\ m' = insert leqb (low n) i m.
  Proof.
    unfold sni_add. destruct (dns n); [|split; [discriminate|intros (H & _); discriminate]]. destruct (fst i) as [|c cs].
    - split; [discriminate|]. intros (_ & (c & cs & H & _) & _). discriminate.
    - destruct (covers c (low n)) eqn:C.
      + split; [intros [= <-]; split; [reflexivity|]; split; [exists c, cs; auto|reflexivity]|]. intros (_ & _ & ->). reflexivity.
      + split; [discriminate|]. intros (_ & (c' & cs' & [= <- <-] & H) & _). congruence.
  Qed.
  (* one site of several *)
  Lemma loop_site one m s ss : tls_site s = true -> forall r, loop false one m (s :: ss) = Ok r <->
    exists i, usable s i /\ loop false one (insert leqb (low (known_as s)) i m) ss = Ok r.
  Proof.
    intros T r. cbn [site_loop]. rewrite T. change (t_name s) with (known_as s). split.
    - destruct (load_keys (t_key s)) as [k|e|] eqn:K; cbn [rbind]; try discriminate. destruct (load_certs (t_cert s)) as [c|e|] eqn:C; cbn [rbind]; try discriminate.
      destruct (key_ok k) eqn:KO; try discriminate. destruct (sni_add dns covers (known_as s) (c, k) m) as [m'|e|] eqn:A; cbn [rbind]; try discriminate. intros H.
      apply add_ok in A. destruct A as (A1 & A2 & ->). exists (c, k). split; [|exact H]. split; [split; [apply load_certs_ok; exact C|apply load_keys_ok; exact K]|auto].
    - intros ([c k] & ((C & K) & KO & D & CV) & H). cbn [fst snd] in *. apply load_certs_ok in C. apply load_keys_ok in K. rewrite C, K. cbn [rbind]. rewrite KO.
      assert (A : sni_add dns covers (known_as s) (c, k) m = Ok (insert leqb (low (known_as s)) (c, k) m)) by (apply add_ok; auto). rewrite A. cbn [rbind]. exact H.
  Qed.
  Lemma loop_other one m s ss single : tls_site s = false -> loop single one m (s :: ss) = loop single one m ss.
  Proof. intros T. cbn [site_loop]. rewrite T. reflexivity. Qed.
  Lemma loop_one ss : forall one m r, loop false one m ss = Ok r -> fst r = one.
  Proof.
    induction ss as [|s ss IH]; intros one m r H; [injection H as <-; reflexivity|]. destruct (tls_site s) eqn:T.
    - apply loop_site in H; [|exact T]. destruct H as (i & _ & H). exact (IH _ _ _ H).
    - rewrite loop_other in H by exact T. exact (IH _ _ _ H).
  Qed.
  (* what the last site of a name leaves in the table *)
  Lemma loop_keeps ss n : forall one m r, loop false one m ss = Ok r -> (forall s, In s ss -> wants_tls s -> low (known_as s) <> n) -> lookup leqb n (snd r) = lookup leqb n m.
  Proof.
    induction ss as [|s ss IH]; intros one m r H N; [injection H as <-; reflexivity|]. destruct (tls_site s) eqn:T.
    - apply loop_site in H; [|exact T]. destruct H as (i & _ & H). rewrite (IH _ _ _ H) by (intros x X; apply N; right; exact X).
      apply (lookup_insert_ne leqb leqb_ok). intros E. apply (N s); [left; reflexivity|apply tls_site_ok; exact T|congruence].
    - rewrite loop_other in H by exact T. apply (IH _ _ _ H). intros x X. apply N. right. exact X.
  Qed.
  Lemma start_several ss r : length ss <> 1%nat -> start ss = Ok r -> exists m, r = ByName m /\ loop false None [] ss = Ok (None, m).
  Proof.
    intros L H. unfold tls_start in H. destruct (Nat.eqb_spec (length ss) 1) as [E|_]; [contradiction|].
    destruct (loop false None [] ss) as [[one m]|e|] eqn:LP; cbn [rbind] in H; try discriminate. pose proof (loop_one _ _ _ _ LP) as O. cbn [fst] in O. subst one. injection H as <-. eauto.
  Qed.
  Lemma loop_app a b : forall m r, loop false None m (a ++ b) = Ok r -> exists m', loop false None m a = Ok (None, m') /\ loop false None m' b = Ok r.
  Proof.
    induction a as [|s a IH]; intros m r H; [exists m; auto|]. cbn [app] in H. destruct (tls_site s) eqn:T.
    - apply loop_site in H; [|exact T]. destruct H as (i & U & H). destruct (IH _ _ H) as (m' & A & B). exists m'. split; [|exact B]. apply loop_site; [exact T|]. eauto.
    - rewrite loop_other in * by exact T. apply IH. exact H.
  Qed.

  (* a client that names a site, in any case of letters, is shown the certificate and key
     configured for it, and the certificate is valid for the name: for the last site of the name *)
  Theorem C158_named_partial : forall a s b r n, start (a ++ s :: b) = Ok r -> length (a ++ s :: b) <> 1%nat -> wants_tls s ->
    (forall s', In s' b -> wants_tls s' -> ~ same_name (known_as s') (known_as s)) -> same_name n (known_as s) ->
    exists i c cs, cert_for r (Some n) = Some i /\ identity s i /\ fst i = c :: cs /\ covers c (low n) = true.
  Proof.
    intros a s b r n ST L W NB LN. apply low_same in LN.
    assert (NB' : forall s', In s' b -> wants_tls s' -> low (known_as s') <> low (known_as s)) by (intros s' I1 W1 E; exact (NB s' I1 W1 (proj1 (low_same _ _) E))). clear NB. rename NB' into NB.
    apply start_several in ST; [|exact L]. destruct ST as (m & -> & LP).
    apply loop_app in LP. destruct LP as (m1 & _ & LP). apply loop_site in LP; [|apply tls_site_ok; exact W]. destruct LP as (i & (ID & _ & _ & c & cs & F & CV) & LP).
    exists i, c, cs. cbn [cert_for]. rewrite LN. pose proof (loop_keeps _ _ _ _ _ LP NB) as KE. cbn [snd] in KE. rewrite KE. split; [apply (lookup_insert_eq leqb leqb_ok)|]. auto.
  Qed.
  (* false of the code: of two sites of one name, also on different ports, the clients of the
     first are shown the certificate of the second *)
  Theorem C158_same_name_refuted : forall a s b s' c r n, start (a ++ s :: b ++ s' :: c) = Ok r -> wants_tls s -> wants_tls s' -> same_name (known_as s') (known_as s) ->
    (forall x, In x c -> wants_tls x -> ~ same_name (known_as x) (known_as s)) -> same_name n (known_as s) ->
    exists i, cert_for r (Some n) = Some i /\ identity s' i.
  Proof.
    intros a s b s' c r n ST W W' SN NC LN.
    assert (E : a ++ s :: b ++ s' :: c = (a ++ s :: b) ++ s' :: c) by (rewrite <- app_assoc; reflexivity). rewrite E in ST.
    destruct (C158_named_partial (a ++ s :: b) s' c r n ST) as (i & x & xs & H1 & H2 & _); [rewrite !app_length; cbn [length]; lia|exact W'| |apply low_same; apply low_same in SN, LN; congruence|exists i; auto].
    intros x X WX E1. apply (NC x X WX). apply low_same. apply low_same in SN, E1. congruence.
  Qed.
  (* the only site answers every client with its certificate *)
  Theorem C158_single : forall s r sni, start [s] = Ok r -> wants_tls s -> exists i, cert_for r sni = Some i /\ identity s i.
  Proof.
    intros s r sni ST W. apply tls_site_ok in W. unfold tls_start in ST. cbn [length Nat.eqb site_loop] in ST. rewrite W in ST.
    destruct (load_keys (t_key s)) as [k|e|] eqn:K; cbn [rbind] in ST; try discriminate. destruct (load_certs (t_cert s)) as [c|e|] eqn:C; cbn [rbind] in ST; try discriminate.
    destruct (pair_ok (c, k)); [|discriminate]. injection ST as <-. exists (c, k). split; [reflexivity|]. split; [apply load_certs_ok; exact C|apply load_keys_ok; exact K].
  Qed.
  (* false of the code: with a second site, even one without TLS, a client that names no
     server or one that is not configured is shown none *)
  Theorem C158_unnamed_refuted : forall ss r, start ss = Ok r -> length ss <> 1%nat ->
    cert_for r None = None /\ forall n, (forall s, In s ss -> wants_tls s -> ~ same_name (known_as s) n) -> cert_for r (Some n) = None.
  Proof.
    intros ss r ST L. apply start_several in ST; [|exact L]. destruct ST as (m & -> & LP). split; [reflexivity|]. intros n N. cbn [cert_for].
    change m with (snd (@None ident, m)). rewrite (loop_keeps _ _ _ _ _ LP); [reflexivity|]. intros s I1 W E. exact (N s I1 W (proj1 (low_same _ _) E)).
  Qed.
  (* nobody is shown a certificate that is not configured for a site *)
  Theorem C158_only_configured : forall ss r sni i, start ss = Ok r -> cert_for r sni = Some i -> exists s, In s ss /\ wants_tls s /\ identity s i.
  Proof.
    intros ss r sni i ST CF. destruct (Nat.eq_dec (length ss) 1) as [L|L].
    - destruct ss as [|s [|]]; try discriminate. destruct (tls_site s) eqn:T.
      + destruct (C158_single s r sni ST) as (j & CJ & ID); [apply tls_site_ok; exact T|]. rewrite CJ in CF. injection CF as <-. exists s. split; [left; reflexivity|]. split; [apply tls_site_ok; exact T|exact ID].
      + unfold tls_start in ST. cbn [length Nat.eqb site_loop] in ST. rewrite T in ST. cbn [rbind] in ST. injection ST as <-. destruct sni; discriminate.
    - apply start_several in ST; [|exact L]. destruct ST as (m & -> & LP). destruct sni as [n|]; [|discriminate]. cbn [cert_for] in CF.
      assert (G : forall ss m0 r0, loop false None m0 ss = Ok r0 -> forall n i, lookup leqb n (snd r0) = Some i -> lookup leqb n m0 = Some i \/ exists s, In s ss /\ wants_tls s /\ identity s i).
      { clear. induction ss as [|s ss IH]; intros m0 r0 H n i F; [injection H as <-; left; exact F|]. destruct (tls_site s) eqn:T.
        - apply loop_site in H; [|exact T]. destruct H as (j & U & H). destruct (IH _ _ H n i F) as [A|(x & X1 & X2)]; [|right; exists x; split; [right; exact X1|exact X2]].
          destruct (leqb n (low (known_as s))) eqn:E.
          + apply leqb_ok in E. subst n. rewrite (lookup_insert_eq leqb leqb_ok) in A. injection A as <-. right. exists s. split; [left; reflexivity|]. split; [apply tls_site_ok; exact T|apply U].
          + rewrite (lookup_insert_ne leqb leqb_ok) in A; [left; exact A|]. intros X. subst n. rewrite leqb_refl in E. discriminate.
        - rewrite loop_other in H by exact T. destruct (IH _ _ H n i F) as [A|(x & X1 & X2)]; [left; exact A|right; exists x; split; [right; exact X1|exact X2]]. }
      destruct (G _ _ _ LP _ _ CF) as [X|X]; [discriminate|exact X].
  Qed.

  (* C159: exactly when several sites start *)
  Theorem C159_several : forall ss, length ss <> 1%nat -> ((exists r, start ss = Ok r) <-> forall s, In s ss -> wants_tls s -> exists i, usable s i).
  Proof.
    intros ss L. split.
    - intros (r & ST). apply start_several in ST; [|exact L]. destruct ST as (m & _ & LP). revert LP. generalize (@nil (text * ident)). clear L r. revert m.
      induction ss as [|s ss IH]; intros m m0 LP x X W; [destruct X|]. destruct (tls_site s) eqn:T.
      + apply loop_site in LP; [|exact T]. destruct LP as (i & U & LP). destruct X as [<-|X]; [exists i; exact U|]. exact (IH _ _ LP x X W).
      + rewrite loop_other in LP by exact T. destruct X as [<-|X]; [apply tls_site_ok in W; congruence|]. exact (IH _ _ LP x X W).
    - intros H. assert (G : forall m0, exists m, loop false None m0 ss = Ok (None, m)).
      { clear L. induction ss as [|s ss IH]; intros m0; [exists m0; reflexivity|]. destruct (tls_site s) eqn:T.
        - destruct (H s (or_introl eq_refl)) as (i & U); [apply tls_site_ok; exact T|]. destruct (IH (fun x X => H x (or_intror X)) (insert leqb (low (known_as s)) i m0)) as (m & E). exists m. apply loop_site; [exact T|]. eauto.
        - rewrite loop_other by exact T. apply IH. intros x X. apply H. right. exact X. }
      destruct (G []) as (m & E). exists (ByName m). unfold tls_start. destruct (Nat.eqb_spec (length ss) 1) as [E1|_]; [contradiction|]. rewrite E. reflexivity.
  Qed.
  (* and one site *)
  Theorem C159_single : forall s, (exists r, start [s] = Ok r) <-> (wants_tls s -> exists i, identity s i /\ pair_ok i = true).
  Proof.
    intros s. unfold tls_start. cbn [length Nat.eqb site_loop]. destruct (tls_site s) eqn:T.
    - split.
      + intros (r & ST) _. destruct (load_keys (t_key s)) as [k|e|] eqn:K; cbn [rbind] in ST; try discriminate. destruct (load_certs (t_cert s)) as [c|e|] eqn:C; cbn [rbind] in ST; try discriminate.
        destruct (pair_ok (c, k)) eqn:P; [|discriminate]. exists (c, k). split; [split; [apply load_certs_ok; exact C|apply load_keys_ok; exact K]|exact P].
      + intros H. destruct H as ([c k] & (C & K) & P); [apply tls_site_ok; exact T|]. cbn [fst snd] in *. apply load_certs_ok in C. apply load_keys_ok in K. rewrite C, K. cbn [rbind]. rewrite P. eauto.
    - split; [intros _ W; apply tls_site_ok in W; congruence|]. intros _. eexists. reflexivity.
  Qed.
  (* false of the code: a key in the format PRIVATE KEY or EC PRIVATE KEY is not found; the
     http section does not start *)
  Theorem C159_format_refuted : forall ss s l, In s ss -> t_cert s <> None -> t_key s = Some (Some l) -> (forall k, ~ In (IRsa k) l) -> forall r, start ss <> Ok r.
  Proof.
    intros ss s l I1 CE KE NR r ST. assert (W : wants_tls s) by (split; [exact CE|rewrite KE; discriminate]).
    assert (ID : exists i, identity s i).
    { destruct (Nat.eq_dec (length ss) 1) as [L|L].
      - destruct ss as [|s0 [|]]; try discriminate. destruct I1 as [->|[]]. destruct (C159_single s) as (X & _). destruct X as (i & X & _); eauto.
      - destruct (C159_several ss L) as (X & _). destruct (X (ex_intro _ r ST) s I1 W) as (i & U & _). eauto. }
    destruct ID as (i & _ & (a & b & K & _ & _)). rewrite KE in K. injection K as ->. apply (NR (snd i)), in_or_app. right. left. reflexivity.
  Qed.
  (* false of the code: neither does it with a second key in the file *)
  Theorem C159_two_keys_refuted : forall ss s x k y k' z, In s ss -> t_cert s <> None -> t_key s = Some (Some (x ++ IRsa k :: y ++ IRsa k' :: z)) -> forall r, start ss <> Ok r.
  Proof.
    intros ss s x k y k' z I1 CE KE r ST. assert (W : wants_tls s) by (split; [exact CE|rewrite KE; discriminate]).
    assert (ID : exists i, identity s i).
    { destruct (Nat.eq_dec (length ss) 1) as [L|L].
      - destruct ss as [|s0 [|]]; try discriminate. destruct I1 as [->|[]]. destruct (C159_single s) as (X & _). destruct X as (i & X & _); eauto.
      - destruct (C159_several ss L) as (X & _). destruct (X (ex_intro _ r ST) s I1 W) as (i & U & _). eauto. }
    destruct ID as (i & _ & K). apply load_keys_ok in K. rewrite KE in K. cbn [load_keys] in K.
    destruct (pem_rsa (x ++ IRsa k :: y ++ IRsa k' :: z)) as [ks|e|] eqn:E; cbn [rbind] in K; try discriminate. apply rsa_list in E. destruct E as (_ & E).
    rewrite flat_map_app in E. cbn [flat_map] in E. rewrite flat_map_app in E. cbn [flat_map app] in E.
    apply (f_equal (@length N)) in E. rewrite !app_length in E. cbn [length] in E. rewrite app_length in E. cbn [length] in E. destruct ks as [|? [|]]; cbn [length] in E; try discriminate; lia.
  Qed.
End Thms.

Definition ex_site (d : string) (c k : N) : tsite := TSite (Some (txt d)) [] (Some (Some [ICert c; ICert 99])) (Some (Some [IPkcs8 4; IRsa k])).
Definition yes {A} (_ : A) : bool := true.
Definition ex_plain : tsite := TSite None (txt "plain") None None.
Example C158_example : wants_tls (ex_site "a.org" 1 11) /\
  exists r, tls_start yes yes (fun _ => yes) yes [ex_site "a.org" 1 11; ex_plain; ex_site "b.org" 2 12] = Ok r /\
    cert_for r (Some (txt "A.org")) = Some ([1; 99], 11) /\ cert_for r (Some (txt "b.org")) = Some ([2; 99], 12) /\ cert_for r None = None.
Proof. split; [split; discriminate|]. eexists. split; [vm_compute; reflexivity|]. vm_compute. auto. Qed.
Example C158_same_name_example :
  exists r, tls_start yes yes (fun _ => yes) yes [ex_site "a.org" 1 11; ex_site "a.org" 2 12] = Ok r /\ cert_for r (Some (txt "a.org")) = Some ([2; 99], 12).
Proof. eexists. split; vm_compute; reflexivity. Qed.
Example C159_example : tls_start yes yes (fun _ => yes) yes [TSite (Some (txt "a.org")) [] (Some (Some [ICert 1])) (Some (Some [IPkcs8 4]))] = Err tt /\
  usable yes yes (fun _ => yes) (ex_site "a.org" 1 11) ([1; 99], 11).
Proof.
  split; [reflexivity|]. split; [split|]; [| |split; [reflexivity|split; [reflexivity|exists 1, [99]; split; reflexivity]]].
  - exists [ICert 1; ICert 99]. split; [reflexivity|]. split; [intros [X|[X|[]]]; discriminate|reflexivity].
  - exists [IPkcs8 4], []. split; [reflexivity|]. split; [intros [X|[]]; discriminate|intros k [X|[]]; discriminate].
Qed.

Print Assumptions C158_named_partial. Print Assumptions C158_same_name_refuted. Print Assumptions C158_single. Print Assumptions C158_unnamed_refuted. Print Assumptions C158_only_configured.
Print Assumptions C159_several. Print Assumptions C159_single. Print Assumptions C159_format_refuted. Print Assumptions C159_two_keys_refuted.
