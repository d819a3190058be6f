(* Lemmas about the HTTP proxy. *)
From Coq Require Import String.
From Verif Require Import Base Text TextOps ConfModel AddrModel SocksModel SocksSpec HttpProxyModel.
Open Scope N_scope.

(* base64 encoding (RFC 4648), for the specification *)
Definition b64_char (v : N) : N :=
  if v <? 26 then v + 65 else if v <? 52 then v + 71 else if v <? 62 then v - 4 else if v =? 62 then 43 else 47.
Fixpoint b64_encode (b : bytes) : text :=
  match b with
  | [] => []
  | [x] => [b64_char (x / 4); b64_char (x mod 4 * 16); 61; 61]
  | [x; y] => [b64_char (x / 4); b64_char (x mod 4 * 16 + y / 16); b64_char (y mod 16 * 4); 61]
  | x :: y :: z :: r => b64_char (x / 4) :: b64_char (x mod 4 * 16 + y / 16) :: b64_char (y mod 16 * 4 + z / 64) :: b64_char (z mod 64) :: b64_encode r
  end.

Lemma b64_digit_char v : v < 64 -> b64_digit (b64_char v) = Some v.
Proof.
  intros H. assert (A : forallb (fun n => match b64_digit (b64_char (N.of_nat n)) with Some w => w =? N.of_nat n | None => false end) (seq 0 64) = true) by (vm_compute; reflexivity).
  rewrite forallb_forall in A. specialize (A (N.to_nat v)). rewrite N2Nat.id in A. assert (I : In (N.to_nat v) (seq 0 64)) by (apply in_seq; lia).
  specialize (A I). destruct (b64_digit (b64_char v)) as [w|]; [|discriminate]. apply N.eqb_eq in A. subst. reflexivity.
Qed.
Lemma b64_char_not_pad v : v < 64 -> b64_char v =? 61 = false.
Proof.
  intros H. destruct (N.eqb_spec (b64_char v) 61) as [E|]; [|reflexivity]. assert (D := b64_digit_char v H). rewrite E in D. discriminate.
Qed.
Lemma b64_char_word v : v < 64 -> is_ws (b64_char v) = false.
Proof.
  intros H. assert (A : forallb (fun n => negb (is_ws (b64_char (N.of_nat n)))) (seq 0 64) = true) by (vm_compute; reflexivity).
  rewrite forallb_forall in A. specialize (A (N.to_nat v)). rewrite N2Nat.id in A. assert (I : In (N.to_nat v) (seq 0 64)) by (apply in_seq; lia).
  specialize (A I). destruct (is_ws (b64_char v)); [discriminate|reflexivity].
Qed.
Lemma full_ok x y z : x < 256 -> y < 256 -> z < 256 ->
  b64_full (b64_char (x / 4)) (b64_char (x mod 4 * 16 + y / 16)) (b64_char (y mod 16 * 4 + z / 64)) (b64_char (z mod 64)) = Some [x; y; z].
Proof.
  intros Hx Hy Hz. unfold b64_full. rewrite !b64_digit_char by lia. f_equal. f_equal; [lia|]. f_equal; [lia|]. f_equal. lia.
Qed.
(* only what the encoding of some bytes is can be decoded *)
Lemma b64_char_digit c v : b64_digit c = Some v -> c = b64_char v /\ v < 64.
Proof.
  unfold b64_digit, b64_char. intros H.
  repeat match type of H with (if ?b then _ else _) = _ => destruct b eqn:? end; try discriminate; injection H as <-;
  repeat match goal with [X : _ && _ = true |- _] => apply andb_true_iff in X; destruct X end;
  rewrite ?N.leb_le, ?N.eqb_eq in *; (split; [|lia]);
  repeat match goal with |- context [?a <? ?b] => destruct (N.ltb_spec a b) | |- context [?a =? ?b] => destruct (N.eqb_spec a b) end; lia.
Qed.
Lemma b64_len n : forall b, (length b <= n)%nat -> bytes_ok b = true -> b64_decode (b64_encode b) = Some b /\ (b <> [] -> b64_encode b <> []) /\
  no_ws (b64_encode b) = true.
Proof.
  induction n as [|n IH]; intros b L H.
  - destruct b; [|cbn in L; lia]. repeat split. intros Q; elim Q; reflexivity.
  - destruct b as [|x [|y [|z r]]].
    + repeat split. intros Q; elim Q; reflexivity.
    + cbn in H. unfold byte_ok in H. apply andb_true_iff in H. destruct H as [H _]. apply N.ltb_lt in H.
      split; [|split; [discriminate|]].
      * cbn [b64_encode b64_decode]. unfold b64_last. change (61 =? 61) with true. cbn iota. rewrite !b64_digit_char by lia.
        replace (x mod 4 * 16 mod 16 =? 0) with true by (symmetry; apply N.eqb_eq; lia). f_equal. f_equal. lia.
      * unfold no_ws. cbn [b64_encode forallb]. rewrite !b64_char_word by lia. reflexivity.
    + cbn in H. unfold byte_ok in H. rewrite !andb_true_iff in H. destruct H as (H1 & H2 & _). apply N.ltb_lt in H1, H2.
      split; [|split; [discriminate|]].
      * cbn [b64_encode b64_decode]. unfold b64_last. change (61 =? 61) with true. cbn iota. rewrite b64_char_not_pad by lia. rewrite !b64_digit_char by lia.
        replace (y mod 16 * 4 mod 4 =? 0) with true by (symmetry; apply N.eqb_eq; lia). f_equal. f_equal; [lia|]. f_equal. lia.
      * unfold no_ws. cbn [b64_encode forallb]. rewrite !b64_char_word by lia. reflexivity.
    + cbn [bytes_ok forallb] in H. unfold byte_ok at 1 2 3 in H. rewrite !andb_true_iff in H. destruct H as (H1 & H2 & H3 & H4). apply N.ltb_lt in H1, H2, H3.
      change (forallb byte_ok r = true) with (bytes_ok r = true) in H4. destruct (IH r ltac:(cbn in L; lia) H4) as (D & Q & W).
      split; [|split; [discriminate|]].
      * cbn [b64_encode]. destruct r as [|w r].
        -- cbn [b64_encode b64_decode]. unfold b64_last. rewrite b64_char_not_pad by lia. apply full_ok; assumption.
        -- destruct (b64_encode (w :: r)) as [|e es] eqn:E; [exfalso; apply Q; [discriminate|reflexivity]|].
           cbn [b64_decode] in *. rewrite full_ok by assumption. rewrite D. reflexivity.
      * change (b64_encode (x :: y :: z :: r)) with ([b64_char (x / 4); b64_char (x mod 4 * 16 + y / 16); b64_char (y mod 16 * 4 + z / 64); b64_char (z mod 64)] ++ b64_encode r).
        rewrite no_ws_app, W, andb_true_r. unfold no_ws. cbn [forallb]. rewrite !b64_char_word by lia. reflexivity.
Qed.
Lemma b64_full_ok a b c d l : b64_full a b c d = Some l -> exists x y z, l = [x; y; z] /\ [a; b; c; d] = b64_encode l.
Proof.
  unfold b64_full. destruct (b64_digit a) as [w|] eqn:A; [|discriminate]. destruct (b64_digit b) as [x|] eqn:B; [|discriminate].
  destruct (b64_digit c) as [y|] eqn:C; [|discriminate]. destruct (b64_digit d) as [z|] eqn:D; [|discriminate]. intro H. injection H as <-. do 3 eexists. split; [reflexivity|].
  apply b64_char_digit in A, B, C, D. destruct A as (-> & A), B as (-> & B), C as (-> & C), D as (-> & D). cbn [b64_encode].
  f_equal; [f_equal; lia|]. f_equal; [f_equal; lia|]. f_equal; [f_equal; lia|]. f_equal. f_equal. lia.
Qed.
Lemma b64_canon n : forall t b, (length t <= n)%nat -> b64_decode t = Some b -> t = b64_encode b.
Proof.
  induction n as [|n IH]; intros t b L H.
  - destruct t; [|cbn in L; lia]. injection H as <-. reflexivity.
  - destruct t as [|a [|e [|c [|d r]]]]; try discriminate; [injection H as <-; reflexivity|]. destruct r as [|f r].
    + cbn [b64_decode] in H. unfold b64_last in H. destruct (N.eqb_spec d 61) as [->|_].
      * destruct (N.eqb_spec c 61) as [->|_].
        -- destruct (b64_digit a) as [w|] eqn:A; [|discriminate]. destruct (b64_digit e) as [x|] eqn:B; [|discriminate]. destruct (N.eqb_spec (x mod 16) 0) as [M|_]; [|discriminate]. injection H as <-.
           apply b64_char_digit in A, B. destruct A as (-> & A), B as (-> & B). cbn [b64_encode]. f_equal; [f_equal; lia|]. f_equal. f_equal. lia.
        -- destruct (b64_digit a) as [w|] eqn:A; [|discriminate]. destruct (b64_digit e) as [x|] eqn:B; [|discriminate]. destruct (b64_digit c) as [y|] eqn:C; [|discriminate].
           destruct (N.eqb_spec (y mod 4) 0) as [M|_]; [|discriminate]. injection H as <-.
           apply b64_char_digit in A, B, C. destruct A as (-> & A), B as (-> & B), C as (-> & C). cbn [b64_encode]. f_equal; [f_equal; lia|]. f_equal; [f_equal; lia|]. f_equal. f_equal. lia.
      * apply b64_full_ok in H. destruct H as (x & y & z & -> & ->). reflexivity.
    + change (match b64_full a e c d, b64_decode (f :: r) with Some x, Some y => Some (x ++ y) | _, _ => None end = Some b) in H. destruct (b64_full a e c d) as [l|] eqn:F; [|discriminate]. destruct (b64_decode (f :: r)) as [m|] eqn:R; [|discriminate]. injection H as <-.
      apply b64_full_ok in F. destruct F as (x & y & z & -> & E). apply IH in R; [|cbn in L |- *; lia]. cbn [b64_encode app] in E |- *. injection E as -> -> -> ->. now rewrite R.
Qed.
Lemma b64_roundtrip b : bytes_ok b = true -> b64_decode (b64_encode b) = Some b.
Proof. intros H. exact (proj1 (b64_len (length b) b (le_n _) H)). Qed.
Lemma b64_word b : bytes_ok b = true -> b <> [] -> word (b64_encode b) = true.
Proof.
  intros H N. destruct (b64_len (length b) b (le_n _) H) as (_ & Q & W). specialize (Q N). unfold word. unfold no_ws in W.
  destruct (b64_encode b); [congruence|exact W].
Qed.

(* ---- splitting at a colon ---------------------------------------------------------- *)
Lemma split_acc_join d s : forall acc, exists x l, split_acc d acc s = x :: l /\
  (l = [] -> x = acc ++ s /\ no_char d s = true) /\
  (forall y, l = [y] -> exists a, x = acc ++ a /\ s = a ++ d :: y /\ no_char d a = true /\ no_char d y = true).
Proof.
  induction s as [|c s IH]; intros acc; cbn [split_acc].
  - exists acc, []. split; [reflexivity|]. split; [intros _; rewrite app_nil_r; auto|]. discriminate.
  - destruct (N.eqb_spec c d) as [->|Hc].
    + destruct (IH []) as (x & l & E & H1 & H2). exists acc, (split_acc d [] s). split; [reflexivity|]. rewrite E. split; [discriminate|].
      intros y Hy. injection Hy as -> ->. destruct (H1 eq_refl) as [-> Hn]. exists []. rewrite app_nil_r. split; [reflexivity|]. split; [reflexivity|]. split; [reflexivity|exact Hn].
    + destruct (IH (acc ++ [c])) as (x & l & E & H1 & H2). exists x, l. split; [exact E|]. split.
      * intros Hl. destruct (H1 Hl) as [-> Hn]. rewrite <- app_assoc. split; [reflexivity|]. unfold no_char in *. cbn [forallb]. rewrite Hn.
        replace (c =? d) with false by (symmetry; apply N.eqb_neq; exact Hc). reflexivity.
      * intros y Hy. destruct (H2 y Hy) as (a & -> & -> & Ha & Hy'). exists (c :: a). rewrite <- app_assoc. split; [reflexivity|]. split; [reflexivity|].
        split; [|exact Hy']. unfold no_char in *. cbn [forallb]. rewrite Ha. replace (c =? d) with false by (symmetry; apply N.eqb_neq; exact Hc). reflexivity.
Qed.
Lemma split_two d s x y : split_on d s = [x; y] <-> s = x ++ d :: y /\ no_char d x = true /\ no_char d y = true.
Proof.
  split.
  - unfold split_on. intros H. destruct (split_acc_join d s []) as (x' & l & E & _ & H2). rewrite H in E. injection E as <- <-.
    destruct (H2 y eq_refl) as (a & -> & -> & Ha & Hy). auto.
  - intros (-> & Hx & Hy). rewrite split_on_app by exact Hx. rewrite split_on_one by exact Hy. reflexivity.
Qed.
Lemma check_true u p v : check_basic_auth u p v = Ok true <->
  exists scheme tok more, split_ws v = scheme :: tok :: more /\ b64_decode tok = Some (u ++ 58 :: p) /\ no_char 58 u = true /\ no_char 58 p = true.
Proof.
  unfold check_basic_auth. split.
  - intros H. destruct (split_ws v) as [|sc [|tok more]]; try discriminate. exists sc, tok, more. split; [reflexivity|].
    destruct (b64_decode tok) as [r|]; [|discriminate]. destruct (split_on 58 r) as [|x [|y [|]]] eqn:E; try discriminate.
    assert (Q : leqb x u && leqb y p = true) by congruence. apply andb_true_iff in Q. destruct Q as [Q1 Q2]. apply leqb_ok in Q1, Q2. subst.
    apply split_two in E. destruct E as (-> & E). auto.
  - intros (sc & tok & more & -> & -> & Hu & Hp). assert (E : split_on 58 (u ++ 58 :: p) = [u; p]) by (apply split_two; auto).
    rewrite E, !leqb_refl. reflexivity.
Qed.

(* ---- runs ------------------------------------------------------------------------------ *)
Definition forwards (ev : list hev) : Prop := exists h, (exists a, In (HSend h a) ev) \/ In (HTunnel h) ev.
(* the request carries the configured credentials *)
Definition carries (c : hcfg) (q : hreq) : Prop :=
  match h_auth c with Some (u, p) => exists v, q_auth q = Some v /\ check_basic_auth u p v = Ok true | None => True end.
Lemma operate_conn c s q dial reply s' ev a : h_operate c s q dial reply = (s', ev, a) -> k_conn s = None ->
  (k_conn s' <> None \/ forwards ev -> carries c q).
Proof.
  intros H Hs. unfold h_operate in H. rewrite Hs in H. destruct (q_host q) as [h|].
  2:{ injection H as <- <- <-. intros [Q|(x & [[y []]|[]])]. contradiction. }
  destruct dial; cbn [negb] in H.
  2:{ injection H as <- <- <-. intros [Q|(x & [[y [Q|[]]]|[Q|[]]])]; [contradiction|discriminate|discriminate]. }
  unfold carries. destruct (h_auth c) as [[u p]|]; [|intros _; exact I].
  destruct (q_auth q) as [v|].
  - destruct (check_basic_auth u p v) as [[]| |] eqn:E.
    + intros _. exists v. auto.
    + injection H as <- <- <-. intros [Q|(x & [[y [Q|[]]]|[Q|[]]])]; [contradiction|discriminate|discriminate].
    + injection H as <- <- <-. intros [Q|(x & [[y [Q|[]]]|[Q|[]]])]; [contradiction|discriminate|discriminate].
    + injection H as <- <- <-. intros [Q|(x & [[y [Q|[]]]|[Q|[]]])]; [contradiction|discriminate|discriminate].
  - injection H as <- <- <-. intros [Q|(x & [[y [Q|[]]]|[Q|[]]])]; [contradiction|discriminate|discriminate].
Qed.
Lemma run_forwards c qs : forall s i ev a, k_conn s = None -> nth_error (snd (h_run c s qs)) i = Some (ev, a) -> forwards ev ->
  exists j q d r, (j <= i)%nat /\ nth_error qs j = Some (q, d, r) /\ carries c q.
Proof.
  induction qs as [|[[q d] r] qs IH]; intros s i ev a Hs H F; cbn [h_run] in H.
  - destruct i; discriminate.
  - destruct (h_operate c s q d r) as [[s1 ev1] a1] eqn:E. destruct (h_run c s1 qs) as [s2 l] eqn:E2. cbn [snd] in H.
    assert (O := operate_conn c s q d r s1 ev1 a1 E Hs). destruct i as [|i].
    + cbn in H. injection H as -> ->. exists 0%nat, q, d, r. split; [lia|]. split; [reflexivity|]. auto.
    + destruct (k_conn s1) as [t|] eqn:K.
      * exists 0%nat, q, d, r. split; [lia|]. split; [reflexivity|]. apply O. left. congruence.
      * cbn in H. specialize (IH s1 i ev a K). rewrite E2 in IH. destruct (IH H F) as (j & q' & d' & r' & L & N & C).
        exists (S j), q', d', r'. split; [lia|]. auto.
Qed.

(* ---- detection --------------------------------------------------------------------------- *)
Lemma put_back_concat s segs : concat (put_back s segs) = s ++ concat segs.
Proof. destruct s; reflexivity. Qed.
Lemma put_back_alive s segs : Forall (fun x : bytes => x <> []) segs -> Forall (fun x : bytes => x <> []) (put_back s segs).
Proof. intros H. destruct s; [exact H|]. constructor; [discriminate|exact H]. Qed.
Lemma detect_bytes flag room segs i : (detect flag room segs = ToHttp i \/ detect flag room segs = ToSocks i) ->
  Forall (fun x => x <> []) segs -> sent i = concat segs /\ alive i.
Proof.
  unfold detect, to_socks. intros H A. destruct (has_http flag).
  - destruct segs as [|s segs]; [destruct H; discriminate|]. destruct (firstn room s) as [|b r] eqn:E; [destruct H; discriminate|].
    inversion A; subst. assert (S : i = (b :: r, put_back (skipn room s) segs)).
    { destruct (b =? 5); [|destruct H; congruence]. destruct (f_contains flag f_socks5); destruct H; congruence. }
    subst i. unfold sent, alive. cbn [fst snd]. rewrite put_back_concat. split; [|apply put_back_alive; assumption].
    cbn [concat]. rewrite app_assoc, <- E, firstn_skipn. reflexivity.
  - destruct (f_contains flag f_socks5); [|destruct H; discriminate]. destruct H as [H|H]; [discriminate|]. injection H as <-. split; [reflexivity|exact A].
Qed.
Lemma detect_choice flag room segs b rest : (0 < room)%nat -> Forall (fun x => x <> []) segs -> concat segs = b :: rest ->
  exists i, detect flag room segs =
    if has_http flag then (if b =? 5 then to_socks flag i else ToHttp i) else to_socks flag i.
Proof.
  intros R A S. unfold detect. destruct (has_http flag).
  - destruct segs as [|s segs]; [discriminate|]. inversion A; subst. destruct s as [|x s]; [congruence|]. cbn in S. injection S as -> S.
    destruct room as [|room]; [lia|]. cbn [firstn]. eexists. reflexivity.
  - eexists. reflexivity.
Qed.
