(* Lemmas about the SOCKS5 server. *)
From Verif Require Import Base Text AddrModel SocksModel SocksSpec.
Open Scope N_scope.

Lemma nlen_app' {A} (a b : list A) : nlen (a ++ b) = nlen a + nlen b.
Proof. unfold nlen. rewrite app_length. lia. Qed.
Lemma nlen_cons' {A} (x : A) b : nlen (x :: b) = 1 + nlen b.
Proof. unfold nlen. cbn [length]. lia. Qed.
Lemma nlen_firstn {A} n (b : list A) : n <= nlen b -> nlen (firstn (N.to_nat n) b) = n.
Proof. unfold nlen. intros H. rewrite firstn_length. lia. Qed.

(* ---- numbers ----------------------------------------------------------------- *)
Lemma be_length k : forall n, length (be k n) = k.
Proof. induction k as [|k IH]; intros n; cbn [be]; [reflexivity|]. rewrite app_length, IH. cbn. lia. Qed.
Lemma unbe_snoc b x : unbe (b ++ [x]) = unbe b * 256 + x.
Proof. unfold unbe. rewrite fold_left_app. reflexivity. Qed.
Lemma unbe_be k : forall n, n < 256 ^ N.of_nat k -> unbe (be k n) = n.
Proof.
  induction k as [|k IH]; intros n H.
  - cbn. cbn in H. change (N.of_nat 0) with 0 in H. rewrite N.pow_0_r in H. lia.
  - cbn [be]. rewrite unbe_snoc, IH; [lia|]. rewrite Nat2N.inj_succ, N.pow_succ_r' in H. lia.
Qed.
Lemma value_snoc b x : value (b ++ [x]) = value b * 256 + x.
Proof.
  induction b as [|y b IH]; cbn [app value]; [cbn; change (nlen (@nil N)) with 0; rewrite N.pow_0_r; lia|].
  rewrite IH, nlen_app'. change (nlen [x]) with 1. rewrite N.pow_add_r, N.pow_1_r. lia.
Qed.
Lemma unbe_value b : unbe b = value b.
Proof.
  induction b as [|x b IH] using rev_ind; [reflexivity|]. rewrite unbe_snoc, value_snoc, IH. reflexivity.
Qed.

(* ---- reading ----------------------------------------------------------------- *)
(* input i stands for the bytes b, at least k of which are buffered *)
Definition rel (k : N) (i : inp) (b : bytes) : Prop := alive i /\ sent i = b /\ k <= nlen (fst i).
Lemma rel_weaken k k' i b : rel k i b -> k' <= k -> rel k' i b.
Proof. intros (A & S & L) H. split; [exact A|]. split; [exact S|lia]. Qed.
Lemma rel_flat b k : k <= nlen b -> rel k (b, []) b.
Proof. intros H. split; [constructor|]. split; [unfold sent; cbn; apply app_nil_r|exact H]. Qed.
Lemma rel_len k i b : rel k i b -> k <= nlen b.
Proof. intros (A & <- & L). unfold sent. rewrite nlen_app'. lia. Qed.

Lemma read_len_sent size i ok i' : read_len size i = (ok, i') -> sent i' = sent i /\ (ok = true -> size <= nlen (fst i')).
Proof.
  destruct i as [buf segs]. unfold read_len, sent. cbn [fst snd]. revert buf. induction segs as [|s segs IH]; intros buf H; cbn [read_len_go] in H.
  - destruct (N.leb_spec size (nlen buf)); injection H as <- <-; cbn; split; auto; try discriminate; intros; lia.
  - destruct (N.leb_spec size (nlen buf)); [injection H as <- <-; cbn; split; auto; intros; lia|].
    destruct s as [|x s].
    + injection H as <- <-. cbn. split; [reflexivity|discriminate].
    + destruct (IH _ H) as [E1 E2]. split; [|exact E2]. rewrite E1. cbn. rewrite <- app_assoc. reflexivity.
Qed.
Lemma read_len_rel size i b : rel 0 i b -> exists ok i', read_len size i = (ok, i') /\ ok = (size <=? nlen b) /\ rel (N.min size (nlen b)) i' b.
Proof.
  destruct i as [buf segs]. unfold rel, alive, read_len. cbn [fst snd]. revert buf. induction segs as [|s segs IH]; intros buf (A & S & _).
  - unfold sent in S. cbn in S. rewrite app_nil_r in S. subst b. cbn [read_len_go]. destruct (N.leb_spec size (nlen buf)).
    + eexists _, _. split; [reflexivity|]. split; [reflexivity|]. split; [constructor|]. split; [unfold sent; cbn; apply app_nil_r|cbn; lia].
    + eexists _, _. split; [reflexivity|]. split; [reflexivity|]. split; [constructor|]. split; [unfold sent; cbn; apply app_nil_r|cbn; lia].
  - cbn [read_len_go]. inversion A as [|? ? Hs A']; subst. destruct (N.leb_spec size (nlen buf)) as [L|L].
    + eexists _, _. split; [reflexivity|]. unfold sent. cbn [fst snd]. rewrite nlen_app'. split; [symmetry; apply N.leb_le; lia|].
      split; [exact A|]. split; [reflexivity|lia].
    + destruct s as [|x s]; [congruence|]. specialize (IH (buf ++ x :: s)). 
      destruct IH as (ok & i' & H1 & H2 & H3); [split; [exact A'|]; split; [unfold sent; cbn; rewrite <- app_assoc; reflexivity|cbn; lia]|].
      exists ok, i'. split; [exact H1|]. split; [exact H2|exact H3].
Qed.
Lemma need_rel size i b : rel 0 i b ->
  (size <= nlen b /\ exists i', need size i = Ok i' /\ rel size i' b) \/ (nlen b < size /\ need size i = Err EIo).
Proof.
  intros H. destruct (read_len_rel size i b H) as (ok & i' & H1 & H2 & H3). unfold need. rewrite H1, H2.
  destruct (N.leb_spec size (nlen b)).
  - left. split; [assumption|]. exists i'. split; [reflexivity|]. rewrite N.min_l in H3 by assumption. exact H3.
  - right. split; [assumption|reflexivity].
Qed.
Lemma get8_rel k i v b : rel (1 + k) i (v :: b) -> exists i', get8 i = Ok (v, i') /\ rel k i' b.
Proof.
  destruct i as [buf segs]. intros (A & S & L). cbn in L. unfold sent in S. cbn in S. destruct buf as [|x buf]; [cbn in L; unfold nlen in L; cbn in L; lia|].
  cbn in S. injection S as -> S. exists (buf, segs). split; [reflexivity|]. split; [exact A|]. split; [exact S|].
  rewrite nlen_cons' in L. cbn. lia.
Qed.
Lemma firstn_rel k i b n : rel k i b -> n <= k -> firstn (N.to_nat n) (fst i) = firstn (N.to_nat n) b.
Proof.
  intros (A & <- & L) H. unfold sent. rewrite firstn_app. replace (N.to_nat n - length (fst i))%nat with 0%nat by (unfold nlen in L; lia).
  rewrite firstn_O, app_nil_r. reflexivity.
Qed.
Lemma advance_rel n k i b : rel (n + k) i b -> exists i', advance n i = Ok i' /\ rel k i' (skipn (N.to_nat n) b).
Proof.
  intros (A & <- & L). unfold advance. replace (nlen (fst i) <? n) with false by (symmetry; apply N.ltb_ge; lia).
  eexists. split; [reflexivity|]. split; [exact A|]. split.
  - unfold sent. cbn [fst snd]. rewrite skipn_app. replace (N.to_nat n - length (fst i))%nat with 0%nat by (unfold nlen in L; lia). reflexivity.
  - cbn [fst]. unfold nlen in *. rewrite skipn_length. lia.
Qed.
Lemma getn_rel k m i b : rel (N.of_nat k + m) i b -> exists i', getn k i = Ok (unbe (firstn k b), i') /\ rel m i' (skipn k b).
Proof.
  intros (A & <- & L). unfold getn. replace (length (fst i) <? k)%nat with false by (symmetry; apply Nat.ltb_ge; unfold nlen in L; lia).
  eexists. split.
  - unfold sent. rewrite firstn_app. replace (k - length (fst i))%nat with 0%nat by (unfold nlen in L; lia).
    rewrite firstn_O, app_nil_r. reflexivity.
  - split; [exact A|]. split.
    + unfold sent. cbn [fst snd]. rewrite skipn_app. replace (k - length (fst i))%nat with 0%nat by (unfold nlen in L; lia). reflexivity.
    + cbn [fst]. unfold nlen in *. rewrite skipn_length. lia.
Qed.

(* the same on what is consumed, for any input *)
Lemma get8_sent i v i' : get8 i = Ok (v, i') -> sent i = v :: sent i'.
Proof. destruct i as [[|x buf] segs]; cbn; [discriminate|]. intros H. injection H as <- <-. reflexivity. Qed.
Lemma advance_sent n i i' : advance n i = Ok i' -> exists b, nlen b = n /\ b = firstn (N.to_nat n) (fst i) /\ sent i = b ++ sent i'.
Proof.
  unfold advance. destruct (N.ltb_spec (nlen (fst i)) n) as [|L]; [discriminate|]. intros H. injection H as <-.
  exists (firstn (N.to_nat n) (fst i)). split; [apply nlen_firstn; lia|]. split; [reflexivity|].
  unfold sent. cbn [fst snd]. rewrite app_assoc, firstn_skipn. reflexivity.
Qed.
Lemma getn_sent k i x i' : getn k i = Ok (x, i') -> exists b, length b = k /\ x = value b /\ sent i = b ++ sent i'.
Proof.
  unfold getn. destruct (Nat.ltb_spec (length (fst i)) k) as [|L]; [discriminate|]. intros H. injection H as <- <-.
  exists (firstn k (fst i)). split; [rewrite firstn_length; lia|]. split; [apply unbe_value|].
  unfold sent. cbn [fst snd]. rewrite app_assoc, firstn_skipn. reflexivity.
Qed.
Lemma need_sent n i i' : need n i = Ok i' -> sent i' = sent i /\ n <= nlen (fst i').
Proof.
  unfold need. destruct (read_len n i) as [ok i1] eqn:E. destruct ok; [|discriminate]. intros H. injection H as <-.
  destruct (read_len_sent _ _ _ _ E) as [H1 H2]. auto.
Qed.

Ltac bind H := 
  match type of H with
  | rbind ?r _ = Ok _ => let E := fresh "E" in destruct r as [?x|?|] eqn:E; cbn [rbind] in H; [|discriminate|discriminate]
  end.

(* ---- authentication ------------------------------------------------------------ *)
Lemma check_part_sent v len i i' : check_part (Some v) len i = Ok (true, i') -> len <= nlen (fst i) ->
  v <> [] /\ nlen v = len /\ sent i = v ++ sent i'.
Proof.
  unfold check_part. destruct (N.eqb_spec len 0) as [->|Hz]; cbn [orb]; [discriminate|].
  destruct (leqb v (firstn (N.to_nat len) (fst i))) eqn:E; cbn [negb]; [|discriminate]. intros H L.
  destruct (advance len i) as [i1| |] eqn:Ea; cbn [rbind] in H; try discriminate. injection H as <-.
  apply leqb_ok in E. destruct (advance_sent _ _ _ Ea) as (b & H1 & H2 & H3). rewrite <- H2 in E. subst b.
  split; [|split; [exact H1|exact H3]]. intros ->. unfold nlen in H1. cbn in H1. lia.
Qed.
Lemma read_head_sent c i v i' : read_head c i = Ok (v, i') ->
  exists ms, sent i = greeting ms ++ sent i' /\ (v = 0 <-> with_password c = false) /\ (v = 0 \/ v = 2 \/ v = 255).
Proof.
  unfold read_head. destruct (read_len 2 i) as [ok1 i1] eqn:E1. intros H. destruct (read_len_sent _ _ _ _ E1) as [S1 _].
  destruct (get8 i1) as [[x i2]| |] eqn:E2; cbn [rbind] in H; try discriminate. destruct (N.eqb_spec x 5) as [->|]; cbn [negb] in H; [|discriminate].
  destruct (get8 i2) as [[len i3]| |] eqn:E3; cbn [rbind] in H; try discriminate.
  destruct (read_len len i3) as [ok2 i4] eqn:E4. destruct (read_len_sent _ _ _ _ E4) as [S4 _].
  destruct (advance len i4) as [i5| |] eqn:E5; cbn [rbind] in H; try discriminate. injection H as <- <-.
  destruct (advance_sent _ _ _ E5) as (b & B1 & _ & B3). exists b. split.
  - rewrite <- S1, (get8_sent _ _ _ E2), (get8_sent _ _ _ E3), <- S4, B3, <- B1. reflexivity.
  - destruct (with_password c); [|split; [tauto|auto]].
    destruct (existsb (fun b => b =? 2) (fst i4)); (split; [split; discriminate|auto]).
Qed.
Lemma read_verify_sent c u p i i' : user c = Some u -> pass c = Some p -> read_verify c i = Ok (true, i') ->
  u <> [] /\ p <> [] /\ sent i = credentials u p ++ sent i'.
Proof.
  intros Hu Hp H. unfold read_verify in H. rewrite Hu, Hp in H.
  destruct (need 2 i) as [i1| |] eqn:E1; cbn [rbind] in H; try discriminate. destruct (need_sent _ _ _ E1) as [S1 _].
  destruct (get8 i1) as [[v i2]| |] eqn:E2; cbn [rbind] in H; try discriminate. destruct (N.eqb_spec v 1) as [->|]; cbn [negb] in H; [|discriminate].
  destruct (get8 i2) as [[ul i3]| |] eqn:E3; cbn [rbind] in H; try discriminate.
  destruct (need ul i3) as [i4| |] eqn:E4; cbn [rbind] in H; try discriminate. destruct (need_sent _ _ _ E4) as [S4 L4].
  destruct (check_part (Some u) ul i4) as [[ok i5]| |] eqn:E5; cbn [rbind] in H; try discriminate.
  destruct ok; cbn [negb] in H; [|discriminate]. destruct (check_part_sent _ _ _ _ E5 L4) as (U1 & U2 & U3).
  destruct (need 1 i5) as [i6| |] eqn:E6; cbn [rbind] in H; try discriminate. destruct (need_sent _ _ _ E6) as [S6 _].
  destruct (get8 i6) as [[pl i7]| |] eqn:E7; cbn [rbind] in H; try discriminate.
  destruct (need pl i7) as [i8| |] eqn:E8; cbn [rbind] in H; try discriminate. destruct (need_sent _ _ _ E8) as [S8 L8].
  destruct (check_part_sent _ _ _ _ H L8) as (P1 & P2 & P3). split; [exact U1|]. split; [exact P1|].
  rewrite <- S1, (get8_sent _ _ _ E2), (get8_sent _ _ _ E3), <- S4, U3, <- S6, (get8_sent _ _ _ E7), <- S8, P3. subst ul pl.
  unfold credentials. cbn [app]. do 2 f_equal. rewrite <- app_assoc. reflexivity.
Qed.

(* events that reach beyond the client *)
Definition reaches (e : sev) : Prop := match e with EvWrite _ => False | _ => True end.
(* ---- the answer to a complete and correct dialogue, for any segmentation ------- *)
Lemma read_head_ok c i ms rest : rel 0 i (greeting ms ++ rest) -> nlen ms < 256 -> (with_password c = true -> In 2 ms) ->
  exists i', read_head c i = Ok (if with_password c then 2 else 0, i') /\ rel 0 i' rest.
Proof.
  intros H Hl H2. unfold read_head. destruct (read_len_rel 2 i _ H) as (ok & i1 & -> & _ & R1).
  unfold greeting in R1. cbn [app] in R1. rewrite !nlen_cons', nlen_app' in R1.
  destruct (get8_rel 1 i1 5 (nlen ms :: ms ++ rest)) as (i2 & -> & R2); [eapply rel_weaken; [exact R1|lia]|]. cbn [rbind]. change (negb (5 =? 5)) with false. cbn iota.
  destruct (get8_rel 0 i2 (nlen ms) (ms ++ rest)) as (i3 & -> & R3); [eapply rel_weaken; [exact R2|lia]|]. cbn [rbind].
  destruct (read_len_rel (nlen ms) i3 _ R3) as (ok2 & i4 & -> & _ & R4). rewrite nlen_app' in R4.
  assert (R4' : rel (nlen ms + 0) i4 (ms ++ rest)) by (eapply rel_weaken; [exact R4|lia]).
  destruct (advance_rel (nlen ms) 0 i4 _ R4') as (i5 & -> & R5). cbn [rbind]. exists i5. split.
  - f_equal. f_equal. destruct (with_password c); [|reflexivity].
    replace (existsb (fun b => b =? 2) (fst i4)) with true; [reflexivity|]. symmetry. apply existsb_exists. exists 2. split; [|reflexivity].
    specialize (H2 eq_refl). assert (F := firstn_rel _ _ _ (nlen ms) R4' ltac:(lia)).
    rewrite firstn_app in F. unfold nlen in F. rewrite Nat2N.id, firstn_all, Nat.sub_diag, firstn_O, app_nil_r in F.
    rewrite <- F in H2. rewrite <- (firstn_skipn (length ms) (fst i4)). apply in_or_app. left. exact H2.
  - replace rest with (skipn (N.to_nat (nlen ms)) (ms ++ rest)); [exact R5|].
    unfold nlen. rewrite Nat2N.id, skipn_app, skipn_all, Nat.sub_diag. reflexivity.
Qed.
Lemma check_part_ok (v : bytes) i rest : rel (nlen v) i (v ++ rest) -> v <> [] -> exists i', check_part (Some v) (nlen v) i = Ok (true, i') /\ rel 0 i' rest.
Proof.
  intros R Hv. unfold check_part. replace (nlen v =? 0) with false by (symmetry; apply N.eqb_neq; destruct v; [congruence|rewrite nlen_cons'; lia]).
  cbn [orb]. rewrite (firstn_rel _ _ _ (nlen v) R) by lia.
  assert (F : firstn (N.to_nat (nlen v)) (v ++ rest) = v).
  { unfold nlen. rewrite Nat2N.id, firstn_app, firstn_all, Nat.sub_diag, firstn_O, app_nil_r. reflexivity. }
  rewrite F, leqb_refl. cbn [negb].
  destruct (advance_rel (nlen v) 0 i _ ltac:(rewrite N.add_0_r; exact R)) as (i' & -> & R'). cbn [rbind]. exists i'. split; [reflexivity|].
  unfold nlen in R'. rewrite Nat2N.id, skipn_app, skipn_all, Nat.sub_diag in R'. exact R'.
Qed.
Lemma read_verify_ok c u p i rest : user c = Some u -> pass c = Some p -> u <> [] -> p <> [] -> rel 0 i (credentials u p ++ rest) ->
  exists i', read_verify c i = Ok (true, i') /\ rel 0 i' rest.
Proof.
  intros Hu Hp Nu Np R. unfold read_verify. rewrite Hu, Hp. unfold credentials in R.
  assert (S : (1 :: nlen u :: u ++ nlen p :: p) ++ rest = 1 :: nlen u :: u ++ nlen p :: p ++ rest) by (cbn; rewrite <- app_assoc; reflexivity).
  rewrite S in R. destruct (need_rel 2 i _ R) as [(L1 & i1 & -> & R1)|[L1 _]]; [|rewrite !nlen_cons' in L1; lia]. cbn [rbind].
  destruct (get8_rel 1 i1 _ _ R1) as (i2 & -> & R2). cbn [rbind]. change (negb (1 =? 1)) with false. cbn iota.
  destruct (get8_rel 0 i2 _ _ R2) as (i3 & -> & R3). cbn [rbind].
  destruct (need_rel (nlen u) i3 _ R3) as [(L4 & i4 & -> & R4)|[L4 _]]; [|rewrite nlen_app' in L4; lia]. cbn [rbind].
  destruct (check_part_ok u i4 _ R4 Nu) as (i5 & -> & R5). cbn [rbind negb].
  destruct (need_rel 1 i5 _ R5) as [(L6 & i6 & -> & R6)|[L6 _]]; [|rewrite nlen_cons' in L6; lia]. cbn [rbind].
  destruct (get8_rel 0 i6 _ _ R6) as (i7 & -> & R7). cbn [rbind].
  destruct (need_rel (nlen p) i7 _ R7) as [(L8 & i8 & -> & R8)|[L8 _]]; [|rewrite nlen_app' in L8; lia]. cbn [rbind].
  exact (check_part_ok p i8 _ R8 Np).
Qed.
(* ---- panics -------------------------------------------------------------------- *)
Lemma read_verify_no_panic c i b : rel 0 i b -> read_verify c i <> Panic.
Proof.
  assert (CP : forall w n i b, rel n i b -> (exists ok i', check_part w n i = Ok (ok, i') /\ exists b', rel 0 i' b')).
  { clear. intros w n i b R. unfold check_part. destruct w as [v|].
    - destruct ((n =? 0) || _).
      + exists false, i. split; [reflexivity|]. exists b. eapply rel_weaken; [exact R|lia].
      + destruct (advance_rel n 0 i b) as (i' & -> & R'); [rewrite N.add_0_r; exact R|]. cbn. eexists _, _. split; [reflexivity|]. eauto.
    - exists true, i. split; [reflexivity|]. exists b. eapply rel_weaken; [exact R|lia]. }
  intros R. unfold read_verify. destruct (need_rel 2 i b R) as [(L1 & i1 & -> & R1)|[_ ->]]; [|discriminate]. cbn [rbind].
  destruct b as [|x b]; [unfold nlen in L1; cbn in L1; lia|]. destruct (get8_rel 1 i1 x b R1) as (i2 & -> & R2). cbn [rbind].
  destruct (negb (x =? 1)); [discriminate|]. destruct b as [|y b]; [apply rel_len in R2; unfold nlen in R2; cbn in R2; lia|].
  destruct (get8_rel 0 i2 y b R2) as (i3 & -> & R3). cbn [rbind].
  destruct (need_rel y i3 b R3) as [(L4 & i4 & -> & R4)|[_ ->]]; [|discriminate]. cbn [rbind].
  destruct (CP (user c) y i4 b R4) as (ok & i5 & -> & b5 & R5). cbn [rbind]. destruct (negb ok); [discriminate|].
  destruct (need_rel 1 i5 b5 R5) as [(L6 & i6 & -> & R6)|[_ ->]]; [|discriminate]. cbn [rbind].
  destruct b5 as [|z b5]; [unfold nlen in L6; cbn in L6; lia|].
  destruct (get8_rel 0 i6 z b5 R6) as (i7 & -> & R7). cbn [rbind].
  destruct (need_rel z i7 b5 R7) as [(L8 & i8 & -> & R8)|[_ ->]]; [|discriminate]. cbn [rbind].
  destruct (CP (pass c) z i8 b5 R8) as (ok2 & i9 & -> & _). discriminate.
Qed.
Lemma read_verify_alive c i b ok i' : rel 0 i b -> read_verify c i = Ok (ok, i') -> alive i'.
Proof.
  assert (RL : forall size i ok i', read_len size i = (ok, i') -> alive i -> alive i').
  { clear. intros size [buf segs] ok i'. unfold read_len, alive. cbn [fst snd]. revert buf. induction segs as [|s segs IH]; intros buf H A; cbn [read_len_go] in H.
    - destruct (size <=? nlen buf); injection H as <- <-; constructor.
    - destruct (size <=? nlen buf); [injection H as <- <-; exact A|]. inversion A; subst. destruct s; [congruence|]. eapply IH; eassumption. }
  assert (ND : forall size i i', need size i = Ok i' -> alive i -> alive i').
  { intros size i0 i1. unfold need. destruct (read_len size i0) as [[] j] eqn:E; [|discriminate]. intros H; injection H as <-. eapply RL; exact E. }
  assert (G8 : forall i v i', get8 i = Ok (v, i') -> alive i -> alive i').
  { clear. intros [[|x buf] segs] v i'; cbn; [discriminate|]. intros H; injection H as _ <-. auto. }
  assert (AD : forall n i i', advance n i = Ok i' -> alive i -> alive i').
  { clear. intros n i i'. unfold advance. destruct (_ <? _); [discriminate|]. intros H; injection H as <-. auto. }
  assert (CP : forall w n i ok i', check_part w n i = Ok (ok, i') -> alive i -> alive i').
  { intros w n i0 ok0 i1. unfold check_part. destruct w as [v|]; [|intros H; injection H as _ <-; auto].
    destruct ((n =? 0) || _); [intros H; injection H as _ <-; auto|]. destruct (advance n i0) as [j| |] eqn:E; cbn; try discriminate.
    intros H; injection H as _ <-. eapply AD; exact E. }
  intros (A & _ & _) H. unfold read_verify in H.
  destruct (need 2 i) as [i1| |] eqn:E1; cbn [rbind] in H; try discriminate.
  destruct (get8 i1) as [[v i2]| |] eqn:E2; cbn [rbind] in H; try discriminate. destruct (negb (v =? 1)); [discriminate|].
  destruct (get8 i2) as [[ul i3]| |] eqn:E3; cbn [rbind] in H; try discriminate.
  destruct (need ul i3) as [i4| |] eqn:E4; cbn [rbind] in H; try discriminate.
  destruct (check_part (user c) ul i4) as [[k i5]| |] eqn:E5; cbn [rbind] in H; try discriminate.
  assert (A5 : alive i5) by eauto 10.
  destruct (negb k); [injection H as _ <-; exact A5|].
  destruct (need 1 i5) as [i6| |] eqn:E6; cbn [rbind] in H; try discriminate.
  destruct (get8 i6) as [[pl i7]| |] eqn:E7; cbn [rbind] in H; try discriminate.
  destruct (need pl i7) as [i8| |] eqn:E8; cbn [rbind] in H; try discriminate. eauto 10.
Qed.
Lemma read_head_any c i ms rest : rel 0 i (greeting ms ++ rest) ->
  exists v i', read_head c i = Ok (v, i') /\ rel 0 i' rest.
Proof.
  intros H. unfold read_head. destruct (read_len_rel 2 i _ H) as (ok & i1 & -> & _ & R1).
  unfold greeting in R1. cbn [app] in R1. rewrite !nlen_cons', nlen_app' in R1.
  destruct (get8_rel 1 i1 5 (nlen ms :: ms ++ rest)) as (i2 & -> & R2); [eapply rel_weaken; [exact R1|lia]|]. cbn [rbind]. change (negb (5 =? 5)) with false. cbn iota.
  destruct (get8_rel 0 i2 (nlen ms) (ms ++ rest)) as (i3 & -> & R3); [eapply rel_weaken; [exact R2|lia]|]. cbn [rbind].
  destruct (read_len_rel (nlen ms) i3 _ R3) as (ok2 & i4 & -> & _ & R4). rewrite nlen_app' in R4.
  assert (R4' : rel (nlen ms + 0) i4 (ms ++ rest)) by (eapply rel_weaken; [exact R4|lia]).
  destruct (advance_rel (nlen ms) 0 i4 _ R4') as (i5 & -> & R5). cbn [rbind]. eexists _, i5. split; [reflexivity|].
  replace rest with (skipn (N.to_nat (nlen ms)) (ms ++ rest)); [exact R5|].
  unfold nlen. rewrite Nat2N.id, skipn_app, skipn_all, Nat.sub_diag. reflexivity.
Qed.
(* a greeting cut short *)
Lemma read_head_cut c i b : rel 0 i b -> b = [] \/ b = [5] \/ (exists n ms, b = 5 :: n :: ms /\ nlen ms < n) -> read_head c i = Panic.
Proof.
  intros R H. unfold read_head. destruct (read_len_rel 2 i _ R) as (ok & i1 & -> & _ & R1).
  destruct H as [->|[->|(n & ms & -> & L)]].
  - destruct R1 as (_ & S & _). unfold sent in S. apply app_eq_nil in S. destruct S as [S _]. unfold get8. rewrite S. reflexivity.
  - change (N.min 2 (nlen [5])) with 1 in R1. destruct (get8_rel 0 i1 5 [] R1) as (i2 & -> & R2). cbn [rbind]. change (negb (5 =? 5)) with false. cbn iota.
    destruct R2 as (_ & S & _). unfold sent in S. apply app_eq_nil in S. destruct S as [S _]. unfold get8. rewrite S. reflexivity.
  - rewrite !nlen_cons' in R1. destruct (get8_rel 1 i1 5 (n :: ms)) as (i2 & -> & R2); [eapply rel_weaken; [exact R1|lia]|].
    cbn [rbind]. change (negb (5 =? 5)) with false. cbn iota.
    destruct (get8_rel 0 i2 n ms) as (i3 & -> & R3); [eapply rel_weaken; [exact R2|lia]|]. cbn [rbind].
    destruct (read_len_rel n i3 _ R3) as (ok2 & i4 & -> & _ & (_ & S & _)). 
    unfold advance. replace (nlen (fst i4) <? n) with true; [reflexivity|]. symmetry. apply N.ltb_lt.
    rewrite <- S in L. unfold sent in L. rewrite nlen_app' in L. lia.
Qed.
Lemma read_head_other c i v b : rel 0 i (v :: b) -> v <> 5 -> exists i', read_head c i = Err (ESize i') /\ sent i' = b.
Proof.
  intros R Hv. unfold read_head. destruct (read_len_rel 2 i _ R) as (ok & i1 & -> & _ & R1). rewrite nlen_cons' in R1.
  destruct (get8_rel 0 i1 v b) as (i2 & -> & R2); [eapply rel_weaken; [exact R1|lia]|]. cbn [rbind].
  replace (v =? 5) with false by (symmetry; apply N.eqb_neq; exact Hv). cbn [negb]. exists i2. split; [reflexivity|]. apply R2.
Qed.

(* ---- the same bytes in other segments -------------------------------------------- *)
Definition same_err (e1 e2 : serr) : Prop := match e1, e2 with ESize i, ESize j => sent i = sent j | _, _ => e1 = e2 end.
Definition agree {A} (r1 r2 : res serr (A * inp)) : Prop :=
  match r1, r2 with
  | Ok (x, i), Ok (y, j) => x = y /\ exists b, rel 0 i b /\ rel 0 j b
  | Err e1, Err e2 => same_err e1 e2
  | Panic, Panic => True
  | _, _ => False
  end.
Ltac need2 n i j b R S :=
  let i' := fresh i in let j' := fresh j in let Ri := fresh R in let Rj := fresh S in let L := fresh "L" in let L' := fresh "L" in
  destruct (need_rel n i b R) as [(L & i' & -> & Ri)|[L ->]]; destruct (need_rel n j b S) as [(L' & j' & -> & Rj)|[L' ->]]; try lia;
  [clear L' i R j S; rename i' into i, j' into j, Ri into R, Rj into S | reflexivity]; cbn [rbind].
Ltac get2 k i j v b R S :=
  let i' := fresh i in let j' := fresh j in let Ri := fresh R in let Rj := fresh S in
  destruct (get8_rel k i v b R) as (i' & -> & Ri); destruct (get8_rel k j v b S) as (j' & -> & Rj);
  clear i R j S; rename i' into i, j' into j, Ri into R, Rj into S; cbn [rbind].
Lemma check_part_agree w n i j b : rel n i b -> rel n j b -> agree (check_part w n i) (check_part w n j).
Proof.
  intros R S. unfold check_part. destruct w as [v|].
  - rewrite (firstn_rel _ _ _ n R), (firstn_rel _ _ _ n S) by lia. destruct ((n =? 0) || _).
    + split; [reflexivity|]. exists b. split; (eapply rel_weaken; [eassumption|lia]).
    + destruct (advance_rel n 0 i b) as (i' & -> & R'); [rewrite N.add_0_r; exact R|].
      destruct (advance_rel n 0 j b) as (j' & -> & S'); [rewrite N.add_0_r; exact S|]. cbn. split; [reflexivity|]. eauto.
  - split; [reflexivity|]. exists b. split; (eapply rel_weaken; [eassumption|lia]).
Qed.
Lemma read_verify_agree c i j b : rel 0 i b -> rel 0 j b -> agree (read_verify c i) (read_verify c j).
Proof.
  intros R S. unfold read_verify. need2 2 i j b R S.
  destruct b as [|x b]; [unfold nlen in *; cbn in *; lia|]. get2 1 i j x b R S.
  destruct (negb (x =? 1)); [reflexivity|]. destruct b as [|y b]; [apply rel_len in R; unfold nlen in R; cbn in R; lia|].
  get2 0 i j y b R S. need2 y i j b R S. assert (C := check_part_agree (user c) y i j b R S).
  destruct (check_part (user c) y i) as [[x1 i1]| |], (check_part (user c) y j) as [[x2 j1]| |]; cbn in C; try contradiction; try exact C; cbn [rbind].
  destruct C as (-> & b1 & R1 & S1). destruct (negb x2); [split; eauto|].
  clear dependent i. clear dependent j. rename i1 into i, j1 into j. need2 1 i j b1 R1 S1.
  destruct b1 as [|z b1]; [apply rel_len in R1; unfold nlen in R1; cbn in R1; lia|]. get2 0 i j z b1 R1 S1. need2 z i j b1 R1 S1.
  apply check_part_agree with (b := b1); assumption.
Qed.
Lemma getn2 k m i j b : rel (N.of_nat k + m) i b -> rel (N.of_nat k + m) j b ->
  exists v i' j' b', getn k i = Ok (v, i') /\ getn k j = Ok (v, j') /\ rel m i' b' /\ rel m j' b'.
Proof.
  intros R S. destruct (getn_rel k m i b R) as (i' & H & R'). destruct (getn_rel k m j b S) as (j' & H2 & S').
  exists (unbe (firstn k b)), i', j', (skipn k b). auto.
Qed.
(* the events but for the forwarded bytes *)
Definition visible (ev : list sev) : list sev := filter (fun e => match e with EvForward _ => false | _ => true end) ev.
Definition same_out (o1 o2 : sout) : Prop := match o1, o2 with Failed e1, Failed e2 => same_err e1 e2 | _, _ => o1 = o2 end.
Definition alike (r1 r2 : list sev * sout) : Prop := visible (fst r1) = visible (fst r2) /\ same_out (snd r1) (snd r2).
Lemma lift_agree {A} ev (r1 r2 : res serr (A * inp)) k : agree r1 r2 ->
  (forall x i j b, rel 0 i b -> rel 0 j b -> alike (k (x, i)) (k (x, j))) -> alike (lift ev r1 k) (lift ev r2 k).
Proof.
  intros H K. unfold lift. destruct r1 as [[x i]| |], r2 as [[y j]| |]; cbn in H; try contradiction.
  - destruct H as (-> & b & R & S). specialize (K y i j b R S). destruct (k (y, i)) as [e1 o1], (k (y, j)) as [e2 o2]. destruct K as [K1 K2].
    cbn in *. split; [|exact K2]. cbn. unfold visible in *. rewrite !filter_app, K1. reflexivity.
  - split; [reflexivity|]. exact H.
  - split; reflexivity.
Qed.
Lemma alike_cons e r1 r2 : alike r1 r2 -> alike (let '(ev, o) := r1 in (e :: ev, o)) (let '(ev, o) := r2 in (e :: ev, o)).
Proof.
  destruct r1 as [e1 o1], r2 as [e2 o2]. intros [H1 H2]. cbn in *. split; [|exact H2]. cbn. unfold visible in *. cbn. rewrite H1. reflexivity.
Qed.
Lemma alike_refl r : alike r r.
Proof. split; [reflexivity|]. destruct r as [e []]; cbn; try reflexivity. destruct e0; reflexivity. Qed.
(* ---- segments that are not needed stay unread ----------------------------------------- *)
Definition plus (i : inp) (t : list bytes) : inp := (fst i, snd i ++ t).
Lemma read_len_frame size i t i' : read_len size i = (true, i') -> read_len size (plus i t) = (true, plus i' t).
Proof.
  destruct i as [buf segs]. unfold read_len, plus. cbn [fst snd]. revert buf. induction segs as [|s segs IH]; intros buf H; cbn [read_len_go app] in *.
  - destruct (N.leb_spec size (nlen buf)) as [L|L]; [|discriminate]. injection H as <-. destruct t; cbn [read_len_go];
      (replace (size <=? nlen buf) with true by (symmetry; apply N.leb_le; exact L)); reflexivity.
  - destruct (size <=? nlen buf); [injection H as <-; reflexivity|]. destruct s; [discriminate|]. apply IH. exact H.
Qed.
Lemma need_frame size i t i' : need size i = Ok i' -> need size (plus i t) = Ok (plus i' t).
Proof.
  unfold need. destruct (read_len size i) as [[] j] eqn:E; [|discriminate]. intros H; injection H as <-. rewrite (read_len_frame _ _ t _ E). reflexivity.
Qed.
Lemma get8_frame i t v i' : get8 i = Ok (v, i') -> get8 (plus i t) = Ok (v, plus i' t).
Proof. destruct i as [[|x buf] segs]; cbn; [discriminate|]. intros H; injection H as <- <-. reflexivity. Qed.
Lemma advance_frame n i t i' : advance n i = Ok i' -> advance n (plus i t) = Ok (plus i' t).
Proof. unfold advance. cbn [plus fst snd]. destruct (_ <? _); [discriminate|]. intros H; injection H as <-. reflexivity. Qed.
Lemma getn_frame k i t v i' : getn k i = Ok (v, i') -> getn k (plus i t) = Ok (v, plus i' t).
Proof. unfold getn. cbn [plus fst snd]. destruct (_ <? _)%nat; [discriminate|]. intros H; injection H as <- <-. reflexivity. Qed.
Lemma read_head_frame c i t v i' : read_head c i = Ok (v, i') -> read_head c (plus i t) = Ok (v, plus i' t).
Proof.
  unfold read_head. destruct (read_len 2 i) as [ok1 i1] eqn:E1. destruct ok1.
  2:{ (* fewer than two bytes *)
    intros H. exfalso. assert (L : nlen (fst i1) < 2).
    { clear H. destruct i as [buf segs]. unfold read_len in E1. cbn in E1. revert buf E1. induction segs as [|s segs IH]; intros buf E; cbn [read_len_go] in E;
      (destruct (N.leb_spec 2 (nlen buf)); [discriminate|]); [injection E as <-; assumption|]. destruct s; [injection E as <-; assumption|]. eauto. }
    destruct (get8 i1) as [[x i2]| |] eqn:E2; cbn [rbind] in H; try discriminate. destruct (negb (x =? 5)); [discriminate|].
    destruct i1 as [[|y [|z r]] sg]; cbn in E2; try discriminate; [|cbn [fst] in L; unfold nlen in L; cbn [length] in L; lia].
    injection E2 as <- <-. discriminate. }
  rewrite (read_len_frame _ _ t _ E1). intros H.
  destruct (get8 i1) as [[x i2]| |] eqn:E2; cbn [rbind] in H; try discriminate. rewrite (get8_frame _ t _ _ E2). cbn [rbind].
  destruct (negb (x =? 5)); [discriminate|].
  destruct (get8 i2) as [[len i3]| |] eqn:E3; cbn [rbind] in H; try discriminate. rewrite (get8_frame _ t _ _ E3). cbn [rbind].
  destruct (read_len len i3) as [ok2 i4] eqn:E4. destruct (advance len i4) as [i5| |] eqn:E5; cbn [rbind] in H; try discriminate.
  destruct ok2.
  - rewrite (read_len_frame _ _ t _ E4). rewrite (advance_frame _ _ t _ E5). cbn [rbind]. injection H as <- <-. reflexivity.
  - exfalso. assert (L : nlen (fst i4) < len).
    { clear - E4. destruct i3 as [buf segs]. unfold read_len in E4. cbn in E4. revert buf E4. induction segs as [|s segs IH]; intros buf E; cbn [read_len_go] in E;
      (destruct (N.leb_spec len (nlen buf)); [discriminate|]); [injection E as <-; assumption|]. destruct s; [injection E as <-; assumption|]. eauto. }
    unfold advance in E5. replace (nlen (fst i4) <? len) with true in E5 by (symmetry; apply N.ltb_lt; exact L). discriminate.
Qed.
Lemma check_part_frame w n i t x i' : check_part w n i = Ok (x, i') -> check_part w n (plus i t) = Ok (x, plus i' t).
Proof.
  unfold check_part. cbn [plus fst]. destruct w as [v|]; [|intros H; injection H as <- <-; reflexivity].
  destruct ((n =? 0) || _); [intros H; injection H as <- <-; reflexivity|].
  destruct (advance n i) as [j| |] eqn:E; cbn [rbind]; try discriminate. intros H; injection H as <- <-.
  change (fst i, snd i ++ t) with (plus i t). rewrite (advance_frame _ _ t _ E). reflexivity.
Qed.
Lemma read_verify_frame c i t x i' : read_verify c i = Ok (x, i') -> read_verify c (plus i t) = Ok (x, plus i' t).
Proof.
  unfold read_verify. intros H.
  destruct (need 2 i) as [i1| |] eqn:E1; cbn [rbind] in H; try discriminate. rewrite (need_frame _ _ t _ E1). cbn [rbind].
  destruct (get8 i1) as [[v i2]| |] eqn:E2; cbn [rbind] in H; try discriminate. rewrite (get8_frame _ t _ _ E2). cbn [rbind].
  destruct (negb (v =? 1)); [discriminate|].
  destruct (get8 i2) as [[ul i3]| |] eqn:E3; cbn [rbind] in H; try discriminate. rewrite (get8_frame _ t _ _ E3). cbn [rbind].
  destruct (need ul i3) as [i4| |] eqn:E4; cbn [rbind] in H; try discriminate. rewrite (need_frame _ _ t _ E4). cbn [rbind].
  destruct (check_part (user c) ul i4) as [[k i5]| |] eqn:E5; cbn [rbind] in H; try discriminate. rewrite (check_part_frame _ _ _ t _ _ E5). cbn [rbind].
  destruct (negb k); [injection H as <- <-; reflexivity|].
  destruct (need 1 i5) as [i6| |] eqn:E6; cbn [rbind] in H; try discriminate. rewrite (need_frame _ _ t _ E6). cbn [rbind].
  destruct (get8 i6) as [[pl i7]| |] eqn:E7; cbn [rbind] in H; try discriminate. rewrite (get8_frame _ t _ _ E7). cbn [rbind].
  destruct (need pl i7) as [i8| |] eqn:E8; cbn [rbind] in H; try discriminate. rewrite (need_frame _ _ t _ E8). cbn [rbind].
  apply check_part_frame. exact H.
Qed.
(* ---- a whole dialogue ------------------------------------------------------------------ *)
(* without further segments everything is taken from the buffer *)
Lemma need_last size i i' : need size i = Ok i' -> snd i = [] -> snd i' = [].
Proof.
  destruct i as [buf segs]. unfold need, read_len. cbn [fst snd]. intros H ->. cbn [read_len_go] in H.
  destruct (size <=? nlen buf); [injection H as <-; reflexivity|discriminate].
Qed.
Lemma get8_last i v i' : get8 i = Ok (v, i') -> snd i = [] -> snd i' = [].
Proof. destruct i as [[|x buf] segs]; cbn; [discriminate|]. intros H; injection H as _ <-. auto. Qed.
Lemma advance_last n i i' : advance n i = Ok i' -> snd i = [] -> snd i' = [].
Proof. unfold advance. destruct (_ <? _); [discriminate|]. intros H; injection H as <-. auto. Qed.
Lemma read_len_last n i k i' : read_len n i = (k, i') -> snd i = [] -> snd i' = [].
Proof.
  destruct i as [buf segs]. unfold read_len. cbn [fst snd]. intros H ->. cbn [read_len_go] in H.
  destruct (n <=? nlen buf); injection H as _ <-; reflexivity.
Qed.
Lemma read_head_last c i v i' : read_head c i = Ok (v, i') -> snd i = [] -> snd i' = [].
Proof.
  unfold read_head. intros H Z. destruct (read_len 2 i) as [k1 i1] eqn:E1. apply read_len_last in E1; [|exact Z].
  destruct (get8 i1) as [[x i2]| |] eqn:E2; cbn [rbind] in H; try discriminate. apply get8_last in E2; [|exact E1].
  destruct (negb (x =? 5)); [discriminate|].
  destruct (get8 i2) as [[y i3]| |] eqn:E3; cbn [rbind] in H; try discriminate. apply get8_last in E3; [|exact E2].
  destruct (read_len y i3) as [k4 i4] eqn:E4. apply read_len_last in E4; [|exact E3]. cbv zeta in H.
  destruct (advance y i4) as [i5| |] eqn:E5; cbn [rbind] in H; try discriminate. injection H as _ <-.
  apply advance_last in E5; assumption.
Qed.
Lemma check_part_last w n i k i' : check_part w n i = Ok (k, i') -> snd i = [] -> snd i' = [].
Proof.
  unfold check_part. intros H Z. destruct w as [v|]; [|injection H as _ <-; exact Z].
  destruct (_ || _); [injection H as _ <-; exact Z|].
  destruct (advance n i) as [i1| |] eqn:E; cbn [rbind] in H; try discriminate. injection H as _ <-.
  apply advance_last in E; assumption.
Qed.
Lemma read_verify_last c i k i' : read_verify c i = Ok (k, i') -> snd i = [] -> snd i' = [].
Proof.
  unfold read_verify. intros H Z.
  destruct (need 2 i) as [i1| |] eqn:E1; cbn [rbind] in H; try discriminate. apply need_last in E1; [|exact Z].
  destruct (get8 i1) as [[v i2]| |] eqn:E2; cbn [rbind] in H; try discriminate. apply get8_last in E2; [|exact E1].
  destruct (negb (v =? 1)); [discriminate|].
  destruct (get8 i2) as [[ul i3]| |] eqn:E3; cbn [rbind] in H; try discriminate. apply get8_last in E3; [|exact E2].
  destruct (need ul i3) as [i4| |] eqn:E4; cbn [rbind] in H; try discriminate. apply need_last in E4; [|exact E3].
  destruct (check_part (user c) ul i4) as [[k5 i5]| |] eqn:E5; cbn [rbind] in H; try discriminate. apply check_part_last in E5; [|exact E4].
  destruct (negb k5); [injection H as _ <-; exact E5|].
  destruct (need 1 i5) as [i6| |] eqn:E6; cbn [rbind] in H; try discriminate. apply need_last in E6; [|exact E5].
  destruct (get8 i6) as [[pl i7]| |] eqn:E7; cbn [rbind] in H; try discriminate. apply get8_last in E7; [|exact E6].
  destruct (need pl i7) as [i8| |] eqn:E8; cbn [rbind] in H; try discriminate. apply need_last in E8; [|exact E7].
  apply check_part_last in H; assumption.
Qed.
(* conversely *)

Section S.
  Context (resolve : bytes -> N -> option (list saddr)).
  Lemma read_addr_sent i a i' : read_addr resolve i = Ok (a, i') -> exists b, asks resolve b a /\ sent i = b ++ sent i'.
  Proof.
    unfold read_addr. intros H. destruct (get8 i) as [[t i1]| |] eqn:E1; cbn [rbind] in H; try discriminate. apply get8_sent in E1.
    destruct (N.eqb_spec t 1) as [->|H1]; [|destruct (N.eqb_spec t 3) as [->|H3]; [|destruct (N.eqb_spec t 4) as [->|H4]; [|discriminate]]].
    - destruct (need 6 i1) as [i2| |] eqn:E2; cbn [rbind] in H; try discriminate. destruct (need_sent _ _ _ E2) as [S2 _].
      destruct (getn 4 i2) as [[ip i3]| |] eqn:E3; cbn [rbind] in H; try discriminate. destruct (getn_sent _ _ _ _ E3) as (b & B1 & -> & B3).
      destruct (getn 2 i3) as [[p i4]| |] eqn:E4; cbn [rbind] in H; try discriminate. destruct (getn_sent _ _ _ _ E4) as (q & Q1 & -> & Q3).
      injection H as <- <-. exists (1 :: b ++ q). split; [constructor; assumption|]. rewrite E1, <- S2, B3, Q3. cbn. rewrite <- app_assoc. reflexivity.
    - destruct (need 1 i1) as [i2| |] eqn:E2; cbn [rbind] in H; try discriminate. destruct (need_sent _ _ _ E2) as [S2 _].
      destruct (get8 i2) as [[len i3]| |] eqn:E3; cbn [rbind] in H; try discriminate. apply get8_sent in E3.
      destruct (need (len + 2) i3) as [i4| |] eqn:E4; cbn [rbind] in H; try discriminate. destruct (need_sent _ _ _ E4) as [S4 _].
      destruct (advance len i4) as [i5| |] eqn:E5; cbn [rbind] in H; try discriminate. destruct (advance_sent _ _ _ E5) as (nm & N1 & N2 & N3).
      destruct (getn 2 i5) as [[p i6]| |] eqn:E6; cbn [rbind] in H; try discriminate. destruct (getn_sent _ _ _ _ E6) as (q & Q1 & -> & Q3).
      rewrite <- N2 in H. destruct (resolve nm (value q)) as [[|x l]|] eqn:Er; try discriminate. injection H as <- <-.
      exists (3 :: nlen nm :: nm ++ q). split; [econstructor; eassumption|]. rewrite E1, <- S2, E3, <- S4, N3, Q3, N1. cbn. rewrite <- app_assoc. reflexivity.
    - destruct (need 18 i1) as [i2| |] eqn:E2; cbn [rbind] in H; try discriminate. destruct (need_sent _ _ _ E2) as [S2 _].
      destruct (getn 16 i2) as [[ip i3]| |] eqn:E3; cbn [rbind] in H; try discriminate. destruct (getn_sent _ _ _ _ E3) as (b & B1 & -> & B3).
      destruct (getn 2 i3) as [[p i4]| |] eqn:E4; cbn [rbind] in H; try discriminate. destruct (getn_sent _ _ _ _ E4) as (q & Q1 & -> & Q3).
      injection H as <- <-. exists (4 :: b ++ q). split; [constructor; assumption|]. rewrite E1, <- S2, B3, Q3. cbn. rewrite <- app_assoc. reflexivity.
  Qed.
  Lemma read_request_sent i cmd a i' : read_request resolve i = Ok (cmd, a, i') ->
    exists b, asks resolve b a /\ sent i = request_msg cmd b ++ sent i'.
  Proof.
    unfold read_request. intros H.
    destruct (need 4 i) as [i1| |] eqn:E1; cbn [rbind] in H; try discriminate. destruct (need_sent _ _ _ E1) as [S1 _].
    destruct (get8 i1) as [[v i2]| |] eqn:E2; cbn [rbind] in H; try discriminate. destruct (N.eqb_spec v 5) as [->|]; cbn [negb] in H; [|discriminate].
    destruct (get8 i2) as [[cm i3]| |] eqn:E3; cbn [rbind] in H; try discriminate.
    destruct (get8 i3) as [[rs i4]| |] eqn:E4; cbn [rbind] in H; try discriminate. destruct (N.eqb_spec rs 0) as [->|]; cbn [negb] in H; [|discriminate].
    destruct (read_addr resolve i4) as [[x i5]| |] eqn:E5; cbn [rbind] in H; try discriminate. injection H as <- <- <-.
    destruct (read_addr_sent _ _ _ E5) as (b & B1 & B2). exists b. split; [exact B1|].
    rewrite <- S1, (get8_sent _ _ _ E2), (get8_sent _ _ _ E3), (get8_sent _ _ _ E4), B2. reflexivity.
  Qed.

  Lemma read_addr_ok i a b rest : asks resolve b a -> rel 1 i (b ++ rest) ->
    exists i', read_addr resolve i = Ok (a, i') /\ rel 0 i' rest.
  Proof.
    intros A R. unfold read_addr. destruct A as [ip port L1 L2|ip port L1 L2|name port a l L2 Hr].
    - cbn [app] in R. destruct (get8_rel 0 i _ _ R) as (i1 & -> & R1). cbn [rbind]. change (1 =? 1) with true. cbn iota.
      rewrite <- app_assoc in R1.
      destruct (need_rel 6 i1 _ R1) as [(L3 & i2 & -> & R2)|[L3 _]]; [|rewrite !nlen_app' in L3; unfold nlen in L3; lia]. cbn [rbind].
      destruct (getn_rel 4 2 i2 _ R2) as (i3 & -> & R3). cbn [rbind].
      rewrite skipn_app, skipn_all2, L1, Nat.sub_diag in R3 by lia. cbn [app skipn] in R3.
      destruct (getn_rel 2 0 i3 _ R3) as (i4 & -> & R4). cbn [rbind].
      rewrite skipn_app, skipn_all2, L2, Nat.sub_diag in R4 by lia. cbn [app skipn] in R4.
      rewrite !firstn_app, L1, L2, !Nat.sub_diag, !firstn_O, !app_nil_r.
      rewrite !firstn_all2 by lia. rewrite !unbe_value. eexists. split; [reflexivity|exact R4].
    - cbn [app] in R. destruct (get8_rel 0 i _ _ R) as (i1 & -> & R1). cbn [rbind]. change (4 =? 1) with false. change (4 =? 3) with false. change (4 =? 4) with true. cbn iota.
      rewrite <- app_assoc in R1.
      destruct (need_rel 18 i1 _ R1) as [(L3 & i2 & -> & R2)|[L3 _]]; [|rewrite !nlen_app' in L3; unfold nlen in L3; lia]. cbn [rbind].
      destruct (getn_rel 16 2 i2 _ R2) as (i3 & -> & R3). cbn [rbind].
      rewrite skipn_app, skipn_all2, L1, Nat.sub_diag in R3 by lia. cbn [app skipn] in R3.
      destruct (getn_rel 2 0 i3 _ R3) as (i4 & -> & R4). cbn [rbind].
      rewrite skipn_app, skipn_all2, L2, Nat.sub_diag in R4 by lia. cbn [app skipn] in R4.
      rewrite !firstn_app, L1, L2, !Nat.sub_diag, !firstn_O, !app_nil_r.
      rewrite !firstn_all2 by lia. rewrite !unbe_value. eexists. split; [reflexivity|exact R4].
    - cbn [app] in R. destruct (get8_rel 0 i _ _ R) as (i1 & -> & R1). cbn [rbind]. change (3 =? 1) with false. change (3 =? 3) with true. cbn iota.
      destruct (need_rel 1 i1 _ R1) as [(L3 & i2 & -> & R2)|[L3 _]]; [|rewrite nlen_cons' in L3; lia]. cbn [rbind].
      destruct (get8_rel 0 i2 _ _ R2) as (i3 & -> & R3). cbn [rbind]. rewrite <- app_assoc in R3.
      destruct (need_rel (nlen name + 2) i3 _ R3) as [(L4 & i4 & -> & R4)|[L4 _]]; [|rewrite !nlen_app' in L4; unfold nlen in L4; lia]. cbn [rbind].
      rewrite (firstn_rel _ _ _ (nlen name) R4) by lia.
      destruct (advance_rel (nlen name) 2 i4 _ R4) as (i5 & -> & R5). cbn [rbind].
      unfold nlen in R5 at 1. rewrite Nat2N.id, skipn_app, skipn_all, Nat.sub_diag in R5. cbn [app skipn] in R5.
      destruct (getn_rel 2 0 i5 _ R5) as (i6 & -> & R6). cbn [rbind].
      rewrite skipn_app, skipn_all2, L2, Nat.sub_diag in R6 by lia. cbn [app skipn] in R6.
      unfold nlen. rewrite Nat2N.id, !firstn_app, L2, !Nat.sub_diag, !firstn_O, !app_nil_r.
      rewrite !firstn_all2 by lia. rewrite unbe_value, Hr. eexists. split; [reflexivity|exact R6].
  Qed.
  Lemma asks_pos b a : asks resolve b a -> 1 <= nlen b.
  Proof. intros []; rewrite nlen_cons'; lia. Qed.
  Lemma read_request_ok i cmd a b rest : asks resolve b a -> rel 0 i (request_msg cmd b ++ rest) ->
    exists i', read_request resolve i = Ok (cmd, a, i') /\ rel 0 i' rest.
  Proof.
    intros A R. unfold read_request. assert (Hb := asks_pos _ _ A). unfold request_msg in R. cbn [app] in R.
    destruct (need_rel 4 i _ R) as [(L1 & i1 & -> & R1)|[L1 _]]; [|rewrite !nlen_cons', nlen_app' in L1; lia]. cbn [rbind].
    destruct (get8_rel 3 i1 _ _ R1) as (i2 & -> & R2). cbn [rbind]. change (negb (5 =? 5)) with false. cbn iota.
    destruct (get8_rel 2 i2 _ _ R2) as (i3 & -> & R3). cbn [rbind].
    destruct (get8_rel 1 i3 _ _ R3) as (i4 & -> & R4). cbn [rbind]. change (negb (0 =? 0)) with false. cbn iota.
    destruct (read_addr_ok i4 a b rest A R4) as (i5 & -> & R5). cbn [rbind]. exists i5. auto.
  Qed.

  Lemma read_addr_no_panic i b : rel 1 i b -> (forall n p, resolve n p <> Some []) -> read_addr resolve i <> Panic.
  Proof.
    intros R Hr. unfold read_addr. destruct b as [|t b]; [apply rel_len in R; unfold nlen in R; cbn in R; lia|].
    destruct (get8_rel 0 i t b R) as (i1 & -> & R1). cbn [rbind].
    destruct (t =? 1); [|destruct (t =? 3); [|destruct (t =? 4); [|discriminate]]].
    - destruct (need_rel 6 i1 b R1) as [(L2 & i2 & -> & R2)|[_ ->]]; [|discriminate]. cbn [rbind].
      destruct (getn_rel 4 2 i2 _ R2) as (i3 & -> & R3). cbn [rbind]. destruct (getn_rel 2 0 i3 _ R3) as (i4 & -> & R4). discriminate.
    - destruct (need_rel 1 i1 b R1) as [(L2 & i2 & -> & R2)|[_ ->]]; [|discriminate]. cbn [rbind].
      destruct b as [|len b]; [unfold nlen in L2; cbn in L2; lia|]. destruct (get8_rel 0 i2 len b R2) as (i3 & -> & R3). cbn [rbind].
      destruct (need_rel (len + 2) i3 b R3) as [(L4 & i4 & -> & R4)|[_ ->]]; [|discriminate]. cbn [rbind].
      destruct (advance_rel len 2 i4 _ R4) as (i5 & -> & R5). cbn [rbind]. destruct (getn_rel 2 0 i5 _ R5) as (i6 & -> & R6). cbn [rbind].
      destruct (resolve _ _) as [[|x l]|] eqn:E; [exfalso; exact (Hr _ _ E)|discriminate|discriminate].
    - destruct (need_rel 18 i1 b R1) as [(L2 & i2 & -> & R2)|[_ ->]]; [|discriminate]. cbn [rbind].
      destruct (getn_rel 16 2 i2 _ R2) as (i3 & -> & R3). cbn [rbind]. destruct (getn_rel 2 0 i3 _ R3) as (i4 & -> & R4). discriminate.
  Qed.
  Lemma read_request_no_panic i b : rel 0 i b -> (forall n p, resolve n p <> Some []) -> read_request resolve i <> Panic.
  Proof.
    intros R Hr. unfold read_request. destruct (need_rel 4 i b R) as [(L1 & i1 & -> & R1)|[_ ->]]; [|discriminate]. cbn [rbind].
    destruct b as [|v b]; [unfold nlen in L1; cbn in L1; lia|]. destruct (get8_rel 3 i1 v b R1) as (i2 & -> & R2). cbn [rbind].
    destruct (negb (v =? 5)); [discriminate|].
    destruct b as [|cm b]; [apply rel_len in R2; unfold nlen in R2; cbn in R2; lia|]. destruct (get8_rel 2 i2 cm b R2) as (i3 & -> & R3). cbn [rbind].
    destruct b as [|rs b]; [apply rel_len in R3; unfold nlen in R3; cbn in R3; lia|]. destruct (get8_rel 1 i3 rs b R3) as (i4 & -> & R4). cbn [rbind].
    destruct (negb (rs =? 0)); [discriminate|]. assert (H := read_addr_no_panic i4 b R4 Hr).
    destruct (read_addr resolve i4) as [[a i5]| |]; cbn [rbind]; [discriminate|discriminate|congruence].
  Qed.

  Lemma read_addr_agree i j b : rel 1 i b -> rel 1 j b -> agree (read_addr resolve i) (read_addr resolve j).
  Proof.
    intros R S. unfold read_addr. destruct b as [|t b]; [apply rel_len in R; unfold nlen in R; cbn in R; lia|]. get2 0 i j t b R S.
    destruct (t =? 1); [|destruct (t =? 3); [|destruct (t =? 4); [|reflexivity]]].
    - need2 6 i j b R S. destruct (getn2 4 2 i j b R S) as (v & i1 & j1 & b1 & -> & -> & R1 & S1). cbn [rbind].
      destruct (getn2 2 0 i1 j1 b1 R1 S1) as (w & i2 & j2 & b2 & -> & -> & R2 & S2). cbn. split; [reflexivity|]. eauto.
    - need2 1 i j b R S. destruct b as [|len b]; [unfold nlen in *; cbn in *; lia|]. get2 0 i j len b R S. need2 (len + 2) i j b R S.
      rewrite (firstn_rel _ _ _ len R), (firstn_rel _ _ _ len S) by lia.
      destruct (advance_rel len 2 i b R) as (i1 & -> & R1). destruct (advance_rel len 2 j b S) as (j1 & -> & S1). cbn [rbind].
      destruct (getn2 2 0 i1 j1 _ R1 S1) as (w & i2 & j2 & b2 & -> & -> & R2 & S2). cbn [rbind].
      destruct (resolve _ w) as [[|x l]|]; [exact I| |reflexivity]. split; [reflexivity|]. eauto.
    - need2 18 i j b R S. destruct (getn2 16 2 i j b R S) as (v & i1 & j1 & b1 & -> & -> & R1 & S1). cbn [rbind].
      destruct (getn2 2 0 i1 j1 b1 R1 S1) as (w & i2 & j2 & b2 & -> & -> & R2 & S2). cbn. split; [reflexivity|]. eauto.
  Qed.
  Lemma read_request_agree i j b : rel 0 i b -> rel 0 j b -> agree (read_request resolve i) (read_request resolve j).
  Proof.
    intros R S. unfold read_request. need2 4 i j b R S. destruct b as [|v b]; [unfold nlen in *; cbn in *; lia|]. get2 3 i j v b R S.
    destruct (negb (v =? 5)); [reflexivity|]. destruct b as [|cm b]; [apply rel_len in R; unfold nlen in R; cbn in R; lia|]. get2 2 i j cm b R S.
    destruct b as [|rs b]; [apply rel_len in R; unfold nlen in R; cbn in R; lia|]. get2 1 i j rs b R S.
    destruct (negb (rs =? 0)); [reflexivity|]. assert (A := read_addr_agree i j b R S).
    destruct (read_addr resolve i) as [[x1 i1]| |], (read_addr resolve j) as [[x2 j1]| |]; cbn in A; try contradiction; try exact A.
    destruct A as (-> & A). cbn. split; [reflexivity|exact A].
  Qed.
  Lemma read_addr_frame i t a i' : read_addr resolve i = Ok (a, i') -> read_addr resolve (plus i t) = Ok (a, plus i' t).
  Proof.
    unfold read_addr. intros H. destruct (get8 i) as [[ty i1]| |] eqn:E1; cbn [rbind] in H; try discriminate. rewrite (get8_frame _ t _ _ E1). cbn [rbind].
    destruct (ty =? 1); [|destruct (ty =? 3); [|destruct (ty =? 4); [|discriminate]]].
    - destruct (need 6 i1) as [i2| |] eqn:E2; cbn [rbind] in H; try discriminate. rewrite (need_frame _ _ t _ E2). cbn [rbind].
      destruct (getn 4 i2) as [[ip i3]| |] eqn:E3; cbn [rbind] in H; try discriminate. rewrite (getn_frame _ _ t _ _ E3). cbn [rbind].
      destruct (getn 2 i3) as [[p i4]| |] eqn:E4; cbn [rbind] in H; try discriminate. rewrite (getn_frame _ _ t _ _ E4). cbn [rbind].
      injection H as <- <-. reflexivity.
    - destruct (need 1 i1) as [i2| |] eqn:E2; cbn [rbind] in H; try discriminate. rewrite (need_frame _ _ t _ E2). cbn [rbind].
      destruct (get8 i2) as [[len i3]| |] eqn:E3; cbn [rbind] in H; try discriminate. rewrite (get8_frame _ t _ _ E3). cbn [rbind].
      destruct (need (len + 2) i3) as [i4| |] eqn:E4; cbn [rbind] in H; try discriminate. rewrite (need_frame _ _ t _ E4). cbn [rbind].
      cbn [plus fst]. change (fst i4, snd i4 ++ t) with (plus i4 t).
      destruct (advance len i4) as [i5| |] eqn:E5; cbn [rbind] in H; try discriminate. rewrite (advance_frame _ _ t _ E5). cbn [rbind].
      destruct (getn 2 i5) as [[p i6]| |] eqn:E6; cbn [rbind] in H; try discriminate. rewrite (getn_frame _ _ t _ _ E6). cbn [rbind].
      destruct (resolve _ p) as [[|x l]|]; try discriminate. injection H as <- <-. reflexivity.
    - destruct (need 18 i1) as [i2| |] eqn:E2; cbn [rbind] in H; try discriminate. rewrite (need_frame _ _ t _ E2). cbn [rbind].
      destruct (getn 16 i2) as [[ip i3]| |] eqn:E3; cbn [rbind] in H; try discriminate. rewrite (getn_frame _ _ t _ _ E3). cbn [rbind].
      destruct (getn 2 i3) as [[p i4]| |] eqn:E4; cbn [rbind] in H; try discriminate. rewrite (getn_frame _ _ t _ _ E4). cbn [rbind].
      injection H as <- <-. reflexivity.
  Qed.
  Lemma read_request_frame i t cmd a i' : read_request resolve i = Ok (cmd, a, i') -> read_request resolve (plus i t) = Ok (cmd, a, plus i' t).
  Proof.
    unfold read_request. intros H.
    destruct (need 4 i) as [i1| |] eqn:E1; cbn [rbind] in H; try discriminate. rewrite (need_frame _ _ t _ E1). cbn [rbind].
    destruct (get8 i1) as [[v i2]| |] eqn:E2; cbn [rbind] in H; try discriminate. rewrite (get8_frame _ t _ _ E2). cbn [rbind].
    destruct (negb (v =? 5)); [discriminate|].
    destruct (get8 i2) as [[cm i3]| |] eqn:E3; cbn [rbind] in H; try discriminate. rewrite (get8_frame _ t _ _ E3). cbn [rbind].
    destruct (get8 i3) as [[rs i4]| |] eqn:E4; cbn [rbind] in H; try discriminate. rewrite (get8_frame _ t _ _ E4). cbn [rbind].
    destruct (negb (rs =? 0)); [discriminate|].
    destruct (read_addr resolve i4) as [[x i5]| |] eqn:E5; cbn [rbind] in H; try discriminate. rewrite (read_addr_frame _ t _ _ E5). cbn [rbind].
    injection H as <- <- <-. reflexivity.
  Qed.

  Lemma encode_asks a : addr_ok a -> asks resolve (encode_addr a) a.
  Proof.
    destruct a as [ip port]. unfold addr_ok, encode_addr, ip_ok. cbn [sa_ip sa_port]. intros [H1 H2].
    assert (P : port = value (be 2 port)). { rewrite <- unbe_value, unbe_be; [reflexivity|]. change (256 ^ N.of_nat 2) with 65536. exact H2. }
    destruct ip as [n|n].
    - assert (Q : n = value (be 4 n)). { rewrite <- unbe_value, unbe_be; [reflexivity|]. change (256 ^ N.of_nat 4) with (2 ^ 32). exact H1. }
      rewrite P at 2. rewrite Q at 2. constructor; apply be_length.
    - assert (Q : n = value (be 16 n)). { rewrite <- unbe_value, unbe_be; [reflexivity|]. change (256 ^ N.of_nat 16) with (2 ^ 128). exact H1. }
      rewrite P at 2. rewrite Q at 2. constructor; apply be_length.
  Qed.
  Lemma read_addr_last b a i' : read_addr resolve (b, []) = Ok (a, i') -> snd i' = [].
  Proof.
    assert (ND : forall size i i', need size i = Ok i' -> snd i = [] -> snd i' = []).
    { clear. intros size [buf segs] i'. unfold need, read_len. cbn [fst snd]. intros H ->. cbn [read_len_go] in H.
      destruct (size <=? nlen buf); [injection H as <-; reflexivity|discriminate]. }
    assert (G8 : forall i v i', get8 i = Ok (v, i') -> snd i = [] -> snd i' = []).
    { clear. intros [[|x buf] segs] v i'; cbn; [discriminate|]. intros H; injection H as _ <-. auto. }
    assert (AD : forall n i i', advance n i = Ok i' -> snd i = [] -> snd i' = []).
    { clear. intros n i i'. unfold advance. destruct (_ <? _); [discriminate|]. intros H; injection H as <-. auto. }
    assert (GN : forall k i v i', getn k i = Ok (v, i') -> snd i = [] -> snd i' = []).
    { clear. intros k i v i'. unfold getn. destruct (_ <? _)%nat; [discriminate|]. intros H; injection H as _ <-. auto. }
    unfold read_addr. intros H. destruct (get8 (b, [])) as [[ty i1]| |] eqn:E1; cbn [rbind] in H; try discriminate.
    assert (Z1 : snd i1 = []) by (eapply G8; [exact E1|reflexivity]).
    destruct (ty =? 1); [|destruct (ty =? 3); [|destruct (ty =? 4); [|discriminate]]].
    - destruct (need 6 i1) as [i2| |] eqn:E2; cbn [rbind] in H; try discriminate.
      destruct (getn 4 i2) as [[ip i3]| |] eqn:E3; cbn [rbind] in H; try discriminate.
      destruct (getn 2 i3) as [[p i4]| |] eqn:E4; cbn [rbind] in H; try discriminate. injection H as _ <-. eauto 8.
    - destruct (need 1 i1) as [i2| |] eqn:E2; cbn [rbind] in H; try discriminate.
      destruct (get8 i2) as [[len i3]| |] eqn:E3; cbn [rbind] in H; try discriminate.
      destruct (need (len + 2) i3) as [i4| |] eqn:E4; cbn [rbind] in H; try discriminate.
      destruct (advance len i4) as [i5| |] eqn:E5; cbn [rbind] in H; try discriminate.
      destruct (getn 2 i5) as [[p i6]| |] eqn:E6; cbn [rbind] in H; try discriminate.
      destruct (resolve _ p) as [[|x l]|]; try discriminate. injection H as _ <-. eauto 12.
    - destruct (need 18 i1) as [i2| |] eqn:E2; cbn [rbind] in H; try discriminate.
      destruct (getn 16 i2) as [[ip i3]| |] eqn:E3; cbn [rbind] in H; try discriminate.
      destruct (getn 2 i3) as [[p i4]| |] eqn:E4; cbn [rbind] in H; try discriminate. injection H as _ <-. eauto 8.
  Qed.
  Lemma udp_parse_ok r1 r2 f b a d : asks resolve b a -> udp_parse resolve ([r1; r2; f] ++ b ++ d) = Ok (f, a, d).
  Proof.
    intros A. unfold udp_parse. cbn [app]. rewrite !nlen_cons'. replace (1 + (1 + (1 + nlen (b ++ d))) <? 3) with false by (symmetry; apply N.ltb_ge; lia).
    assert (H := asks_pos _ _ A). change (getn 2 (r1 :: r2 :: f :: b ++ d, [])) with (Ok (E := serr) (unbe [r1; r2], (f :: b ++ d, @nil bytes))). cbn [rbind get8 fst snd].
    destruct (read_addr_ok (b ++ d, []) a b d A) as (i' & E & R'); [apply rel_flat; rewrite nlen_app'; lia|]. rewrite E. cbn [rbind].
    apply read_addr_last in E. destruct R' as (_ & S & _). unfold sent in S. rewrite E in S. cbn in S. rewrite app_nil_r in S. rewrite S. reflexivity.
  Qed.
  Lemma udp_parse_sent d f a data : udp_parse resolve d = Ok (f, a, data) -> exists r1 r2 b, asks resolve b a /\ d = [r1; r2; f] ++ b ++ data.
  Proof.
    unfold udp_parse. destruct (nlen d <? 3); [discriminate|]. intros H.
    destruct (getn 2 (d, [])) as [[r i1]| |] eqn:E1; cbn [rbind] in H; try discriminate. 
    destruct (get8 i1) as [[f' i2]| |] eqn:E2; cbn [rbind] in H; try discriminate.
    destruct (read_addr resolve i2) as [[x i3]| |] eqn:E3; cbn [rbind] in H; try discriminate.
    injection H as <- <- <-. destruct (getn_sent _ _ _ _ E1) as (q & Q1 & _ & Q2). destruct q as [|r1 [|r2 [|? ?]]]; cbn in Q1; try discriminate.
    apply read_addr_sent in E3 as E3'. destruct E3' as (b & B1 & B2).
    assert (S1 : snd i1 = []). { unfold getn in E1. destruct (_ <? _)%nat; [discriminate|]. injection E1 as _ <-. reflexivity. }
    assert (S2 : snd i2 = []). { destruct i1 as [[|? ?] ?]; cbn in *; [discriminate|]. injection E2 as _ <-. exact S1. }
    assert (S3 : snd i3 = []). { destruct i2 as [b2 sg]; cbn in S2; subst sg. eapply read_addr_last. exact E3. }
    exists r1, r2, b. split; [exact B1|]. rewrite (get8_sent _ _ _ E2) in Q2. rewrite B2 in Q2. unfold sent in Q2. rewrite S3 in Q2. cbn in Q2.
    rewrite !app_nil_r in Q2. exact Q2.
  Qed.
  Lemma udp_parse_panic d : (forall n p, resolve n p <> Some []) -> (udp_parse resolve d = Panic <-> nlen d = 3).
  Proof.
    intros Hr. unfold udp_parse. destruct (N.ltb_spec (nlen d) 3) as [L|L]; [split; [discriminate|lia]|].
    destruct d as [|r1 [|r2 [|f d]]]; try (unfold nlen in L; cbn in L; lia).
    change (getn 2 (r1 :: r2 :: f :: d, [])) with (Ok (E := serr) (unbe [r1; r2], (f :: d, @nil bytes))). cbn [rbind get8 fst snd].
    destruct d as [|x d].
    - cbn. split; reflexivity.
    - split; [|unfold nlen; cbn [length]; lia]. intros H. exfalso.
      assert (N := read_addr_no_panic (x :: d, []) (x :: d) (rel_flat (x :: d) 1 ltac:(rewrite nlen_cons'; lia)) Hr).
      destruct (read_addr resolve (x :: d, [])) as [[a i]| |]; cbn in H; try discriminate. congruence.
  Qed.
End S.

Section T.
  Context (resolve : bytes -> N -> option (list saddr)) (connect : saddr -> bool).
  Lemma serve_request_sent c i ev o e : serve_request resolve connect c i = (ev, o) -> In e ev -> reaches e ->
    exists cmd b a i', asks resolve b a /\ sent i = request_msg cmd b ++ sent i' /\
      match e with
      | EvConnect x => cmd = 1 /\ x = a
      | EvForward d => cmd = 1 /\ d = concat (snd i')
      | EvAssociate ip => cmd = 3 /\ bind_ip c = Some ip
      | EvWrite _ => False
      end.
  Proof.
    unfold serve_request, lift. destruct (read_request resolve i) as [[[cmd a] i']| |] eqn:E.
    2,3: intros H; injection H as <- _; intros [].
    destruct (read_request_sent resolve _ _ _ _ E) as (b & B1 & B2). intros H I R. exists cmd, b, a, i'. split; [exact B1|]. split; [exact B2|].
    destruct (N.eqb_spec cmd 1) as [->|H1].
    - destruct (connect a); injection H as <- _; cbn in I.
      + destruct I as [<-|[<-|[<-|[]]]]; cbn in *; auto; destruct R.
      + destruct I as [<-|[<-|[]]]; cbn in *; auto; destruct R.
    - destruct (N.eqb_spec cmd 2); [injection H as <- _; destruct I|]. destruct (N.eqb_spec cmd 3) as [->|]; [|injection H as <- _; destruct I].
      destruct (bind_ip c) as [ip|]; injection H as <- _; [|destruct I]. destruct I as [<-|[]]. auto.
  Qed.
  Lemma process_sent c i ev o e : process resolve connect c i = (ev, o) -> In e ev -> reaches e ->
    exists ms auth cmd b a i',
      (match user c, pass c with Some u, Some p => u <> [] /\ p <> [] /\ auth = credentials u p | _, _ => auth = [] end) /\
      asks resolve b a /\ sent i = greeting ms ++ auth ++ request_msg cmd b ++ sent i' /\
      match e with
      | EvConnect x => cmd = 1 /\ x = a
      | EvForward d => cmd = 1 /\ d = concat (snd i')
      | EvAssociate ip => cmd = 3 /\ bind_ip c = Some ip
      | EvWrite _ => False
      end.
  Proof.
    unfold process, lift. destruct (read_head c i) as [[v i1]| |] eqn:E1.
    2,3: intros H; injection H as <- _; intros [].
    destruct (read_head_sent _ _ _ _ E1) as (ms & M1 & M2 & M3). intros H I R.
    destruct (N.eqb_spec v 255) as [->|N255].
    { injection H as <- _. destruct I as [<-|[]]. destruct R. }
    destruct (N.eqb_spec v 2) as [->|N2].
    - destruct (read_verify c i1) as [[ok i2]| |] eqn:E2.
      2,3: injection H as <- _; destruct I as [<-|[]]; destruct R.
      assert (Hw : with_password c = true) by (destruct (with_password c); [reflexivity|]; destruct M2 as [_ M2]; specialize (M2 eq_refl); discriminate).
      unfold with_password in Hw. destruct (user c) as [u|] eqn:Eu; [|discriminate]. destruct (pass c) as [p|] eqn:Ep; [|discriminate].
      destruct ok.
      + destruct (read_verify_sent c u p i1 i2 Eu Ep E2) as (U1 & P1 & S1).
        destruct (serve_request resolve connect c i2) as [ev2 o2] eqn:E3. injection H as <- _.
        cbn in I. destruct I as [<-|[<-|I]]; [destruct R|destruct R|].
        destruct (serve_request_sent _ _ _ _ e E3 I R) as (cmd & b & a & i' & A1 & A2 & A3).
        exists ms, (credentials u p), cmd, b, a, i'. split; [auto|]. split; [exact A1|]. split; [|exact A3].
        rewrite M1, S1, A2. reflexivity.
      + injection H as <- _. cbn in I. destruct I as [<-|[<-|[]]]; destruct R.
    - assert (v = 0) by tauto. subst v. destruct (serve_request resolve connect c i1) as [ev2 o2] eqn:E3. injection H as <- _.
      cbn in I. destruct I as [<-|I]; [destruct R|].
      destruct (serve_request_sent _ _ _ _ e E3 I R) as (cmd & b & a & i' & A1 & A2 & A3).
      exists ms, [], cmd, b, a, i'. split; [|split; [exact A1|]; split; [|exact A3]].
      + destruct M2 as [M2 _]. specialize (M2 eq_refl). unfold with_password in M2. destruct (user c), (pass c); try reflexivity. discriminate.
      + rewrite M1, A2. reflexivity.
  Qed.

  Lemma serve_request_agree c i j b : rel 0 i b -> rel 0 j b -> alike (serve_request resolve connect c i) (serve_request resolve connect c j).
  Proof.
    intros R S. unfold serve_request. apply lift_agree; [eapply read_request_agree; eassumption|].
    intros [cmd a] i1 j1 b1 _ _. destruct (cmd =? 1).
    - destruct (connect a); split; reflexivity.
    - apply alike_refl.
  Qed.
  Lemma process_agree c i j ms rest : rel 0 i (greeting ms ++ rest) -> rel 0 j (greeting ms ++ rest) -> nlen ms < 256 ->
    (with_password c = true -> In 2 ms) -> alike (process resolve connect c i) (process resolve connect c j).
  Proof.
    intros R S L H. unfold process. destruct (read_head_ok c i ms rest R L H) as (i1 & -> & R1). destruct (read_head_ok c j ms rest S L H) as (j1 & -> & S1).
    apply lift_agree; [split; [reflexivity|eauto]|]. intros v i2 j2 b R2 S2. destruct (v =? 255); [apply alike_refl|].
    destruct (v =? 2).
    - apply lift_agree; [eapply read_verify_agree; eassumption|]. intros x i3 j3 b3 R3 S3. destruct x; [|apply alike_refl].
      apply alike_cons. eapply serve_request_agree; eassumption.
    - apply alike_cons. eapply serve_request_agree; eassumption.
  Qed.

  Definition after_request (c : scfg) (cmd : N) (a : saddr) (i : inp) : list sev * sout :=
      if cmd =? 1 then
        if connect a then ([EvConnect a; EvWrite [5; 0; 0; 1; 0; 0; 0; 0; 0; 0]; EvForward (concat (snd i))], Done)
        else ([EvConnect a; EvWrite [5; 1; 0; 1; 0; 0; 0; 0; 0; 0]], Failed EIo)
      else if cmd =? 2 then ([], Failed ENoSupport)
      else if cmd =? 3 then
        match bind_ip c with None => ([], Failed ENoSupport) | Some ip => ([EvAssociate ip], Done) end
      else ([], Failed EProt).
  Lemma read_request_last i cmd a i' : read_request resolve i = Ok (cmd, a, i') -> snd i = [] -> snd i' = [].
  Proof.
    unfold read_request. intros H Z.
    destruct (need 4 i) as [i1| |] eqn:E1; cbn [rbind] in H; try discriminate. apply need_last in E1; [|exact Z].
    destruct (get8 i1) as [[v i2]| |] eqn:E2; cbn [rbind] in H; try discriminate. apply get8_last in E2; [|exact E1].
    destruct (negb (v =? 5)); [discriminate|].
    destruct (get8 i2) as [[cm i3]| |] eqn:E3; cbn [rbind] in H; try discriminate. apply get8_last in E3; [|exact E2].
    destruct (get8 i3) as [[rs i4]| |] eqn:E4; cbn [rbind] in H; try discriminate. apply get8_last in E4; [|exact E3].
    destruct (negb (rs =? 0)); [discriminate|].
    destruct (read_addr resolve i4) as [[w i5]| |] eqn:E5; cbn [rbind] in H; try discriminate. injection H as _ _ <-.
    destruct i4 as [b4 s4]. cbn in E4. subst s4. eapply read_addr_last. exact E5.
  Qed.
  Lemma answers_if c : answers c = if with_password c then [EvWrite [5; 2]; EvWrite [1; 0]] else [EvWrite [5; 0]].
  Proof. unfold answers, with_password. destruct (user c), (pass c); reflexivity. Qed.
  Lemma dialogue c i ms cmd a b rest : usable c -> nlen ms < 256 -> (with_password c = true -> In 2 ms) -> asks resolve b a ->
    rel 0 i (greeting ms ++ auth_msg c ++ request_msg cmd b ++ rest) ->
    exists i', rel 0 i' rest /\ (snd i = [] -> snd i' = []) /\ forall t, process resolve connect c (plus i t) =
      (answers c ++ fst (after_request c cmd a (plus i' t)), snd (after_request c cmd a (plus i' t))).
  Proof.
    intros U L M A R. destruct (read_head_ok c i ms _ R L M) as (i1 & E1 & R1). rewrite answers_if. unfold process.
    destruct (with_password c) eqn:W.
    - unfold with_password in W. unfold auth_msg in R1. unfold usable in U. destruct (user c) as [u|] eqn:Eu; [|discriminate]. destruct (pass c) as [p|] eqn:Ep; [|discriminate].
      destruct (read_verify_ok c u p i1 _ Eu Ep (proj1 U) (proj2 U) R1) as (i2 & E2 & R2).
      destruct (read_request_ok resolve i2 cmd a b rest A R2) as (i3 & E3 & R3). exists i3. split; [exact R3|].
      split; [intros Z; exact (read_request_last _ _ _ _ E3 (read_verify_last _ _ _ _ E2 (read_head_last _ _ _ _ E1 Z)))|]. intros t.
      rewrite (read_head_frame _ _ t _ _ E1). unfold lift at 1. change (2 =? 255) with false. change (2 =? 2) with true. cbn iota.
      rewrite (read_verify_frame _ _ t _ _ E2). unfold lift. unfold serve_request, lift. rewrite (read_request_frame resolve _ t _ _ _ E3).
      change (if cmd =? 1 then _ else _) with (after_request c cmd a (plus i3 t)). destruct (after_request c cmd a (plus i3 t)) as [e o]. reflexivity.
    - assert (R1' : rel 0 i1 (request_msg cmd b ++ rest)).
      { unfold with_password in W. unfold auth_msg in R1. destruct (user c), (pass c); try exact R1. discriminate. }
      destruct (read_request_ok resolve i1 cmd a b rest A R1') as (i3 & E3 & R3). exists i3. split; [exact R3|].
      split; [intros Z; exact (read_request_last _ _ _ _ E3 (read_head_last _ _ _ _ E1 Z))|]. intros t.
      rewrite (read_head_frame _ _ t _ _ E1). unfold lift at 1. change (0 =? 255) with false. change (0 =? 2) with false. cbn iota.
      unfold serve_request, lift. rewrite (read_request_frame resolve _ t _ _ _ E3).
      change (if cmd =? 1 then _ else _) with (after_request c cmd a (plus i3 t)). destruct (after_request c cmd a (plus i3 t)) as [e o]. reflexivity.
  Qed.
  Lemma process_no_crash c i b ms : rel 0 i b -> (exists v r, b = v :: r /\ v <> 5) \/ (exists r, b = greeting ms ++ r) ->
    (forall n p, resolve n p <> Some []) -> snd (process resolve connect c i) <> Crashed.
  Proof.
    intros R H Hr. assert (SR : forall i b, rel 0 i b -> snd (serve_request resolve connect c i) <> Crashed).
    { clear - Hr. intros i b R. unfold serve_request, lift. assert (N := read_request_no_panic resolve i b R Hr).
      destruct (read_request resolve i) as [[[cmd a] j]| |]; [|discriminate|congruence].
      destruct (cmd =? 1); [destruct (connect a); discriminate|]. destruct (cmd =? 2); [discriminate|]. destruct (cmd =? 3); [destruct (bind_ip c); discriminate|discriminate]. }
    unfold process, lift at 1. destruct H as [(v & r & -> & Hv)|(r & ->)].
    - destruct (read_head_other c i v r R Hv) as (i' & -> & _). discriminate.
    - destruct (read_head_any c i ms r R) as (v & i1 & -> & R1). destruct (v =? 255); [discriminate|]. destruct (v =? 2).
      + assert (N := read_verify_no_panic c i1 r R1). assert (AL := read_verify_alive c i1 r).
        unfold lift. destruct (read_verify c i1) as [[ok i2]| |]; [|discriminate|congruence]. specialize (AL _ _ R1 eq_refl).
        destruct ok; [|discriminate]. assert (Q : rel 0 i2 (sent i2)) by (split; [exact AL|split; [reflexivity|lia]]).
        specialize (SR i2 _ Q). destruct (serve_request resolve connect c i2) as [e o]. exact SR.
      + specialize (SR i1 r R1). destruct (serve_request resolve connect c i1) as [e o]. exact SR.
  Qed.
End T.

(* ---- the relay ----------------------------------------------------------------------------- *)
Inductive uev := FromClientSide (from : saddr) (d : bytes) | FromTarget (from : saddr) (d : bytes).
(* what is sent: to a target, or to the peer *)
Inductive usent := ToTarget (from : saddr) (to : saddr) (d : bytes) | ToPeer (from : saddr) (to : saddr) (d : bytes).
Definition ustep (resolve : bytes -> N -> option (list saddr)) (sends replies : saddr -> bytes -> bool) (s : ustate) (e : uev) : ustate * list usent :=
  match e with
  | FromClientSide from d => let '(s', o) := udp_in resolve sends s from d in (s', map (fun x => ToTarget from (fst x) (snd x)) o)
  | FromTarget from d => let '(s', o) := udp_out replies s from d in (s', map (fun x => ToPeer from (fst x) (snd x)) o)
  end.
Fixpoint urun (resolve : bytes -> N -> option (list saddr)) (sends replies : saddr -> bytes -> bool) (s : ustate) (es : list uev) : ustate * list usent :=
  match es with
  | [] => (s, [])
  | e :: es' => let '(s1, o) := ustep resolve sends replies s e in let '(s2, o') := urun resolve sends replies s1 es' in (s2, o ++ o')
  end.
Lemma saddr_eqb p q : ip_eqb (sa_ip p) (sa_ip q) && (sa_port p =? sa_port q) = true <-> p = q.
Proof.
  destruct p as [[x|x] a], q as [[y|y] b]; cbn; rewrite ?andb_true_iff, ?N.eqb_eq; split; intros H; try discriminate;
    try (destruct H; congruence); try (split; congruence); destruct H; discriminate.
Qed.
Definition by_peer (p : saddr) (u : usent) : Prop := match u with ToTarget from _ _ => from = p | ToPeer _ to _ => to = p end.
Lemma urun_peer resolve sends replies es : forall s p, (s = URun (Some p) \/ s = UQuiet (Some p) \/ s = UEnded) -> Forall (by_peer p) (snd (urun resolve sends replies s es)).
Proof.
  induction es as [|e es IH]; intros s p H; cbn [urun]; [constructor|].
  destruct (ustep resolve sends replies s e) as [s1 o] eqn:E. assert (Q : (s1 = URun (Some p) \/ s1 = UQuiet (Some p) \/ s1 = UEnded) /\ Forall (by_peer p) o).
  { destruct e as [from d|from d]; unfold ustep in E.
    - destruct H as [->|[->| ->]]; cbn [udp_in] in E.
      + destruct (ip_eqb (sa_ip p) (sa_ip from) && (sa_port p =? sa_port from)) eqn:Q.
        * apply saddr_eqb in Q. subst from. destruct (udp_parse resolve d) as [[[f a] x]| |].
          -- destruct (f =? 0); [destruct (sends a x)|]; injection E as <- <-; (split; [auto|]); repeat constructor.
          -- injection E as <- <-. split; [auto|constructor].
          -- injection E as <- <-. split; [auto|constructor].
        * injection E as <- <-. split; [auto|constructor].
      + injection E as <- <-. split; [auto|constructor].
      + injection E as <- <-. split; [auto|constructor].
    - destruct H as [->|[->| ->]]; cbn [udp_out] in E; cbv zeta in E; try (destruct (replies _ _)); injection E as <- <-; (split; [auto|]); repeat constructor. }
  destruct Q as [Q1 Q2]. specialize (IH s1 p Q1). destruct (urun resolve sends replies s1 es) as [s2 o']. cbn in *. apply Forall_app. auto.
Qed.
Lemma urun_one_peer resolve sends replies es : exists p, Forall (by_peer p) (snd (urun resolve sends replies (URun None) es)).
Proof.
  destruct es as [|e es]; [exists (SAddr (V4 0) 0); constructor|]. cbn [urun].
  destruct (ustep resolve sends replies (URun None) e) as [s1 o] eqn:E. destruct e as [from d|from d]; unfold ustep in E.
  - exists from. assert (Q : (s1 = URun (Some from) \/ s1 = UQuiet (Some from) \/ s1 = UEnded) /\ Forall (by_peer from) o).
    { cbn [udp_in] in E. destruct (udp_parse resolve d) as [[[f a] x]| |].
      - destruct (f =? 0); [destruct (sends a x)|]; injection E as <- <-; (split; [auto|]); repeat constructor.
      - injection E as <- <-. split; [auto|constructor].
      - injection E as <- <-. split; [auto|constructor]. }
    destruct Q as [Q1 Q2]. assert (R := urun_peer resolve sends replies es s1 from Q1). destruct (urun resolve sends replies s1 es). cbn in *. apply Forall_app. auto.
  - exists from. cbn [udp_out] in E. injection E as <- <-. assert (R := urun_peer resolve sends replies es UEnded from ltac:(auto)).
    destruct (urun resolve sends replies UEnded es). exact R.
Qed.
