From Coq Require Import String.
From Verif Require Import Base Text TextOps AddrModel AddrSpec.
Open Scope N_scope.

Lemma ip_eqb_ok a b : ip_eqb a b = true <-> a = b.
Proof.
  destruct a, b; cbn; try (split; discriminate); rewrite N.eqb_eq; (split; [intros ->; reflexivity|intros H; injection H; auto]).
Qed.
Lemma testbit_high x w i : x < 2 ^ w -> w <= i -> N.testbit x i = false.
Proof.
  intros H Hi. destruct (N.eq_dec x 0) as [->|Hx]; [apply N.bits_0|]. apply N.bits_above_log2.
  apply N.log2_lt_pow2; [lia|]. eapply N.lt_le_trans; [exact H|]. apply N.pow_le_mono_r; lia.
Qed.
Lemma shiftr_agree x y w n : x < 2 ^ w -> y < 2 ^ w -> n <= w ->
  (N.shiftr x (w - n) = N.shiftr y (w - n) <-> agree w n x y).
Proof.
  intros Hx Hy Hn. split.
  - intros H i Hi. assert (E : N.testbit (N.shiftr x (w - n)) (n - 1 - i) = N.testbit (N.shiftr y (w - n)) (n - 1 - i)) by (rewrite H; reflexivity).
    rewrite !N.shiftr_spec in E by lia. replace (n - 1 - i + (w - n)) with (w - 1 - i) in E by lia. exact E.
  - intros H. apply N.bits_inj. intros i. rewrite !N.shiftr_spec by lia.
    destruct (N.ltb_spec i n) as [Hi|Hi].
    + specialize (H (n - 1 - i) ltac:(lia)). replace (w - 1 - (n - 1 - i)) with (i + (w - n)) in H by lia. exact H.
    + rewrite !(testbit_high _ w) by (try assumption; lia). reflexivity.
Qed.
Lemma agree_full w x y : x < 2 ^ w -> y < 2 ^ w -> (agree w w x y <-> x = y).
Proof.
  intros Hx Hy. rewrite <- shiftr_agree by (try assumption; lia). replace (w - w) with 0 by lia. rewrite !N.shiftr_0_r. reflexivity.
Qed.
Lemma gate_v4 y n a : 1 <= n <= 32 -> y < 2 ^ 32 -> ip_ok a ->
  (gate_contains (Gate (V4 y) n) a = true <-> cidr (V4 y) n a).
Proof.
  intros Hn Hy Ha. unfold gate_contains. cbn [g_len g_ip]. replace (n =? 0) with false by lia.
  destruct a as [x|x]; cbn [cidr ip_eqb]; [|split; [discriminate|intros []]].
  rewrite N.eqb_eq. apply shiftr_agree; [exact Ha|exact Hy|lia].
Qed.
Lemma agree_refl w n x : agree w n x x.
Proof. intros i _. reflexivity. Qed.
Lemma gate_sound ip n a : ip_ok ip -> ip_ok a -> (match ip with V4 _ => n <= 32 | V6 _ => n <= 128 end) ->
  gate_contains (Gate ip n) a = true -> cidr ip n a.
Proof.
  intros Hip Ha Hn H. unfold gate_contains in H. cbn [g_len g_ip] in H.
  destruct (N.eqb_spec n 0) as [->|Hn0].
  - apply ip_eqb_ok in H. subst a. destruct ip; cbn; apply agree_refl.
  - destruct a as [x|x], ip as [y|y]; cbn [cidr].
    + apply N.eqb_eq in H. apply shiftr_agree; assumption.
    + discriminate.
    + discriminate.
    + apply ip_eqb_ok in H. injection H as ->. apply agree_refl.
Qed.
Lemma gate_eq ip n a : (n = 0 \/ exists y, ip = V6 y) -> (gate_contains (Gate ip n) a = true <-> a = ip).
Proof.
  intros H. unfold gate_contains. cbn [g_len g_ip]. destruct (N.eqb_spec n 0) as [->|Hn]; [apply ip_eqb_ok|].
  destruct H as [H|[y ->]]; [contradiction|]. destruct a as [x|x]; apply ip_eqb_ok.
Qed.
Lemma set_iff l a : set_contains l a = true <-> exists g, In g l /\ gate_contains g a = true.
Proof. apply existsb_exists. Qed.

(* ---- text ------------------------------------------------------------------------- *)
Section TextFacts.
  Context (parse_ip : text -> option ipaddr) (show_ip : ipaddr -> text).
  Definition gate_ok (g : gate) : Prop :=
    (parse_ip (show_ip (g_ip g)) = Some (g_ip g) /\ no_char 47 (show_ip (g_ip g)) = true /\ word (show_ip (g_ip g)) = true) /\
    match g_ip g with V4 _ => g_len g <= 32 | V6 _ => g_len g <= 128 end.
  Lemma gate_roundtrip g : gate_ok g -> parse_gate parse_ip (show_gate show_ip g) = Ok g.
  Proof.
    intros [(Hi & Hs & _) Hl]. unfold show_gate, parse_gate. destruct g as [ip n]. cbn [g_ip g_len] in *.
    destruct (N.ltb_spec 0 n) as [Hn|Hn].
    - cbn [app]. rewrite split_on_app by exact Hs. rewrite split_on_one by (apply digit_no_char; [reflexivity|apply show_digits]).
      rewrite Hi. rewrite parse_show by (unfold u8_max; destruct ip; lia).
      destruct ip; [replace (32 <? n) with false by lia|replace (128 <? n) with false by lia]; reflexivity.
    - rewrite split_on_one by exact Hs. rewrite Hi. f_equal. f_equal. lia.
  Qed.
  Lemma show_gate_word g : gate_ok g -> word (show_gate show_ip g) = true.
  Proof.
    intros [(_ & _ & H) _]. unfold show_gate. destruct (0 <? g_len g); [|exact H].
    destruct (show_ip (g_ip g)) as [|c s] eqn:E; [discriminate|].
    change (no_ws ((c :: s) ++ [47] ++ show (g_len g)) = true). rewrite !no_ws_app.
    rewrite (word_no_ws (c :: s)) by exact H. rewrite (digits_no_ws (show _)) by apply show_digits. reflexivity.
  Qed.
  Lemma set_roundtrip l : Forall gate_ok l -> parse_set parse_ip (show_set show_ip l) = Ok l.
  Proof.
    intros H. unfold parse_set, show_set.
    assert (E : split_ws (List.concat (map (fun g => show_gate show_ip g ++ [32]) l)) = map (show_gate show_ip) l).
    { induction H as [|g l Hg _ IH]; [reflexivity|]. cbn [map List.concat]. rewrite <- app_assoc.
      cbn [app]. rewrite split_ws_app by (try (apply show_gate_word; exact Hg); reflexivity). rewrite IH. reflexivity. }
    rewrite E. clear E. induction H as [|g l Hg _ IH]; [reflexivity|]. cbn [map parse_gates].
    rewrite gate_roundtrip by exact Hg. cbn [rbind]. rewrite IH. reflexivity.
  Qed.
End TextFacts.
Lemma split_on_nonempty d s : split_on d s <> [].
Proof.
  unfold split_on. generalize ([] : text) as acc. induction s as [|c s IH]; intros acc; cbn [split_acc]; [discriminate|].
  destruct (c =? d); [discriminate|apply IH].
Qed.
Lemma parse_gate_ok parse_ip s g : parse_gate parse_ip s = Ok g ->
  match g_ip g with V4 _ => g_len g <= 32 | V6 _ => g_len g <= 128 end.
Proof.
  unfold parse_gate. destruct (split_on 47 s) as [|v vs]; [discriminate|]. destruct (parse_ip v) as [ip|]; [|discriminate].
  destruct vs as [|w vs]; [intros H; injection H as <-; cbn; destruct ip; lia|].
  destruct (parse_uint u8_max w) as [n|]; [|discriminate].
  destruct ip; [destruct (N.ltb_spec 32 n)|destruct (N.ltb_spec 128 n)]; try discriminate; intros H'; injection H' as <-; cbn; assumption.
Qed.
Lemma parse_set_panic parse_ip s : parse_set parse_ip s <> Panic.
Proof.
  unfold parse_set. generalize (split_ws s) as ws. induction ws as [|w ws IH]; cbn [parse_gates]; [discriminate|].
  assert (P : parse_gate parse_ip w <> Panic).
  { unfold parse_gate. pose proof (split_on_nonempty 47 w) as H. destruct (split_on 47 w) as [|v vs]; [contradiction|].
    destruct (parse_ip v) as [ip|]; [|discriminate]. destruct vs as [|x vs]; [discriminate|].
    destruct (parse_uint u8_max x); [|discriminate]. destruct ip; [destruct (32 <? n)|destruct (128 <? n)]; discriminate. }
  destruct (parse_gate parse_ip w); cbn [rbind]; try congruence. destruct (parse_gates parse_ip ws); cbn [rbind]; congruence.
Qed.

(* ---- listen lists ----------------------------------------------------------------- *)
Lemma no_char_existsb d s : no_char d s = true <-> existsb (fun c => c =? d) s = false.
Proof.
  induction s as [|c s IH]; [split; reflexivity|]. cbn. destruct (c =? d); cbn; [split; discriminate|exact IH].
Qed.
Lemma in_range n : forall from p, In p (range n from) <-> from <= p < from + N.of_nat n.
Proof.
  induction n as [|n IH]; intros from p; cbn [range In]; [split; [intros []|lia]|].
  rewrite IH. split; [intros [->|H]; lia|]. intros H. destruct (N.eq_dec from p); [left|right]; lia.
Qed.
Lemma in_ports p q x : In x (ports p q) <-> p <= x <= q.
Proof. unfold ports. destruct (N.leb_spec p q); [rewrite in_range; lia|split; [intros []|lia]]. Qed.
Lemma join_cons sep x y l : join sep (x :: y :: l) = x ++ sep ++ join sep (y :: l).
Proof. reflexivity. Qed.
Section ListenFacts.
  Context (parse_sa : text -> option saddr) (show_sa : saddr -> text) (local4 local6 : option ipaddr).
  Notation paddr := (parse_addr parse_sa local4 local6).
  Notation plist := (parse_list parse_sa local4 local6).
  Lemma paddr_plain s a : starts_with [58] s = false -> parse_sa s = Some a -> paddr s = Ok [a].
  Proof. intros H1 H2. unfold parse_addr. rewrite H1, H2. reflexivity. Qed.
  Lemma paddr_port p : p <= u16_max ->
    paddr (58 :: show p) = Ok (opt_addr local4 p ++ opt_addr local6 p ++ [SAddr localhost p]).
  Proof.
    intros H. unfold parse_addr. cbn [starts_with strip_prefix]. 
    replace (starts_with [58] (58 :: show p)) with true by reflexivity.
    unfold trim_start_p. cbn [drop_while]. change (58 =? 58) with true. cbn match.
    rewrite drop_while_none; [rewrite parse_show by exact H; reflexivity|].
    apply forallb_forall. intros c Hc. pose proof (show_digits p) as Hd. rewrite forallb_forall in Hd. specialize (Hd c Hc).
    unfold is_digit in Hd. destruct (N.eqb_spec c 58); [lia|reflexivity].
  Qed.
  Lemma paddr_panic s : paddr s <> Panic.
  Proof.
    unfold parse_addr. destruct (starts_with [58] s).
    - destruct (parse_uint _ _); [discriminate|]. destruct (parse_sa _); discriminate.
    - destruct (parse_sa s); discriminate.
  Qed.
  Lemma paddr_nonempty s l : paddr s = Ok l -> l <> [].
  Proof.
    unfold parse_addr. destruct (starts_with [58] s).
    - destruct (parse_uint _ _).
      + intros H; injection H as <-. intros E. apply app_eq_nil in E as [_ E]. apply app_eq_nil in E as [_ E]. discriminate.
      + destruct (parse_sa _); [|discriminate]. intros H; injection H as <-. discriminate.
    - destruct (parse_sa s); [|discriminate]. intros H; injection H as <-. discriminate.
  Qed.
  Lemma one_panic s : parse_one parse_sa local4 local6 s <> Panic.
  Proof.
    unfold parse_one. pose proof (paddr_panic s) as H. destruct (paddr s) as [l| |] eqn:E; cbn [rbind]; try congruence.
    apply paddr_nonempty in E. destruct l; [contradiction|discriminate].
  Qed.
  Lemma addrs_panic ws : parse_addrs parse_sa local4 local6 ws <> Panic.
  Proof.
    induction ws as [|w ws IH]; cbn [parse_addrs]; [discriminate|]. pose proof (paddr_panic w).
    destruct (paddr w); cbn [rbind]; try congruence. destruct (parse_addrs _ _ _ ws); cbn [rbind]; congruence.
  Qed.
  (* without a dash nothing panics *)
  Lemma list_no_dash_panic s : no_char 45 s = true -> plist s <> Panic.
  Proof. intros H. unfold parse_list. apply no_char_existsb in H. rewrite H. apply addrs_panic. Qed.

  Lemma dash_split a b : no_char 45 a = true -> no_char 45 b = true -> a <> [] -> b <> [] ->
    existsb (fun c => c =? 45) (a ++ 45 :: b) = true /\ filter nonempty (split_on 45 (a ++ 45 :: b)) = [a; b].
  Proof.
    intros Ha Hb Na Nb. split.
    - rewrite existsb_app. cbn [existsb]. rewrite N.eqb_refl. destruct (existsb _ a); reflexivity.
    - rewrite split_on_app by exact Ha. rewrite split_on_one by exact Hb. destruct a, b; try contradiction; reflexivity.
  Qed.
  (* the form of the documentation, ip:p-ip:q, always panics *)
  Lemma range_panics a b x y : clean a -> clean b -> starts_with [58] a = false -> starts_with [58] b = false -> parse_sa a = Some x -> parse_sa b = Some y -> plist (a ++ 45 :: b) = Panic.
  Proof.
    intros (Na & _ & Da & _) (Nb & _ & Db & _) Sa Sb Px Py. unfold parse_list.
    destruct (dash_split a b Da Db Na Nb) as [-> ->].
    rewrite (paddr_plain a x Sa Px). cbn [rbind]. rewrite (paddr_plain b y Sb Py). reflexivity.
  Qed.
  Definition has_local : Prop := local4 <> None \/ local6 <> None.
  Lemma second_port p : has_local -> exists u v l,
    opt_addr local4 p ++ opt_addr local6 p ++ [SAddr localhost p] = u :: v :: l /\ sa_port v = p.
  Proof.
    intros H. unfold has_local, opt_addr in *. destruct local4, local6; cbn [app]; try (do 3 eexists; split; [reflexivity|reflexivity]).
    destruct H as [H|H]; elim H; reflexivity.
  Qed.
  (* start-:q with a machine that has a local address: every start address with every port p..q *)
  Lemma range_colon a start x q : no_char 45 a = true -> a <> [] -> has_local -> q <= u16_max ->
    paddr a = Ok start -> hd_error start = Some x ->
    plist (a ++ 45 :: 58 :: show q) =
      Ok (List.concat (map (fun p => map (fun y => SAddr (sa_ip y) p) start) (ports (sa_port x) q))).
  Proof.
    intros Da Na HL Hq Hp Hx. unfold parse_list.
    assert (Db : no_char 45 (58 :: show q) = true) by (cbn; apply (digit_no_char 45 (show q)); [reflexivity|apply show_digits]).
    destruct (dash_split a (58 :: show q) Da Db Na ltac:(discriminate)) as [-> ->].
    rewrite Hp. cbn [rbind]. rewrite paddr_port by exact Hq. cbn [rbind].
    destruct start as [|s0 start]; [discriminate|]. injection Hx as ->.
    destruct (second_port q HL) as (u & v & l & E & Ev). rewrite E, Ev. reflexivity.
  Qed.
  Lemma range_colon_no_local a start q : no_char 45 a = true -> a <> [] -> ~ has_local -> q <= u16_max ->
    paddr a = Ok start -> plist (a ++ 45 :: 58 :: show q) = Panic.
  Proof.
    intros Da Na HL Hq Hp. unfold parse_list.
    assert (Db : no_char 45 (58 :: show q) = true) by (cbn; apply (digit_no_char 45 (show q)); [reflexivity|apply show_digits]).
    destruct (dash_split a (58 :: show q) Da Db Na ltac:(discriminate)) as [-> ->].
    rewrite Hp. cbn [rbind]. rewrite paddr_port by exact Hq. cbn [rbind]. unfold has_local in HL.
    destruct local4; [exfalso; apply HL; left; discriminate|]. destruct local6; [exfalso; apply HL; right; discriminate|].
    cbn [opt_addr app]. destruct start; reflexivity.
  Qed.
  (* comma lists *)
  Lemma split_sep_join ws : Forall clean ws -> ws <> [] -> split_sep (join [44] ws) = ws.
  Proof.
    intros H Hn. unfold split_sep.
    assert (E : split_on 44 (join [44] ws) = ws).
    { induction H as [|w ws (N1 & C & _) H IH].
      - exfalso. apply Hn. reflexivity.
      - destruct ws as [|w' ws]; [apply split_on_one; exact C|]. rewrite join_cons.
        change ([44] ++ join [44] (w' :: ws)) with (44 :: join [44] (w' :: ws)). rewrite split_on_app by exact C.
        rewrite IH by discriminate. reflexivity. }
    rewrite E. clear E Hn. induction H as [|w ws (_ & _ & _ & S) _ IH]; [reflexivity|].
    cbn [map List.concat]. rewrite split_on_one by exact S. rewrite IH. reflexivity.
  Qed.
  Lemma join_no_char d ws : no_char d [44] = true -> Forall (fun w => no_char d w = true) ws -> no_char d (join [44] ws) = true.
  Proof.
    intros H F. induction F as [|w ws Hw F IH]; [reflexivity|]. destruct ws as [|w' ws]; [exact Hw|]. rewrite join_cons.
    rewrite !no_char_app, Hw, H. exact IH.
  Qed.
  Lemma comma_list ws addrs : ws <> [] -> Forall2 (fun w l => clean w /\ paddr w = Ok l) ws addrs ->
    plist (join [44] ws) = Ok (List.concat addrs).
  Proof.
    intros Hn F. unfold parse_list.
    assert (FC : Forall clean ws) by (clear Hn; induction F as [|? ? ? ? [C _] _ IH]; constructor; assumption).
    assert (D : existsb (fun c => c =? 45) (join [44] ws) = false).
    { apply no_char_existsb. apply join_no_char; [reflexivity|]. clear - FC. induction FC as [|w ws (_ & _ & D & _) _ IH]; constructor; assumption. }
    rewrite D. rewrite split_sep_join by assumption.
    assert (E : filter nonempty ws = ws).
    { clear - FC. induction FC as [|w ws (N1 & _) _ IH]; [reflexivity|]. cbn [filter]. destruct w; [contradiction|]. cbn [nonempty]. rewrite IH. reflexivity. }
    rewrite E. clear - F. induction F as [|w l ws ls [_ P] _ IH]; [reflexivity|]. cbn [parse_addrs List.concat].
    rewrite P. cbn [rbind]. rewrite IH. reflexivity.
  Qed.
  Lemma list_roundtrip l : l <> [] ->
    (forall a, In a l -> parse_sa (show_sa a) = Some a /\ clean (show_sa a) /\ starts_with [58] (show_sa a) = false) ->
    plist (show_list show_sa l) = Ok l.
  Proof.
    intros Hn H. unfold show_list. rewrite (comma_list (map show_sa l) (map (fun a => [a]) l)).
    - f_equal. clear. induction l as [|a l IH]; [reflexivity|]. cbn. rewrite IH. reflexivity.
    - destruct l; [contradiction|discriminate].
    - clear Hn. induction l as [|a l IH]; [constructor|]. cbn [map]. destruct (H a (or_introl eq_refl)) as (A & B & C).
      constructor; [split; [exact B|apply paddr_plain; assumption]|]. apply IH. intros x Hx. apply H. right. exact Hx.
  Qed.
End ListenFacts.
