From Coq Require Import String.
From Verif Require Import Base Text TextOps ConfModel ConfSpec.
Open Scope N_scope.

(* ---- sizes ---------------------------------------------------------------------- *)
Lemma u64_max_val : u64_max = 18446744073709551615.
Proof. reflexivity. Qed.
Lemma last_byte_snoc s c : c < 128 -> last_byte (s ++ [c]) = Some c.
Proof.
  intros H. unfold last_byte. rewrite rev_app_distr. cbn [rev app]. unfold utf8_char.
  replace (c <? 0x80) with true by lia. reflexivity.
Qed.
Lemma show_snoc n : exists s d, show n = s ++ [d] /\ is_digit d = true /\ forallb is_digit s = true.
Proof.
  pose proof (show_digits n) as H. pose proof (show_nonempty n) as H0.
  destruct (exists_last H0) as (s & d & E). rewrite E in *. exists s, d.
  rewrite forallb_app in H. apply andb_true_iff in H as [H1 H2]. cbn in H2. rewrite andb_true_r in H2. auto.
Qed.
Lemma digit_unit d : is_digit d = true -> unit_of d = None.
Proof.
  unfold is_digit, unit_of. intros H.
  replace ((d =? 107) || (d =? 75)) with false by lia. replace ((d =? 109) || (d =? 77)) with false by lia.
  replace ((d =? 103) || (d =? 71)) with false by lia. replace ((d =? 116) || (d =? 84)) with false by lia.
  replace ((d =? 112) || (d =? 80)) with false by lia. reflexivity.
Qed.
Lemma parse_size_show n : n <= u64_max -> parse_size (show n) = Ok n.
Proof.
  intros H. unfold parse_size. destruct (show_snoc n) as (s & d & E & Hd & _).
  rewrite E at 1. rewrite last_byte_snoc by (unfold is_digit in Hd; lia).
  rewrite (digit_unit d Hd), Hd, parse_show by exact H. reflexivity.
Qed.
Lemma show_no_unit p n : (forall d, is_digit d = true -> p d = false) -> trim_end_p p (show n) = show n.
Proof.
  intros Hp. apply trim_end_none. apply forallb_forall. intros c Hc. pose proof (show_digits n) as H.
  rewrite forallb_forall in H. rewrite (Hp c (H c Hc)). reflexivity.
Qed.
Lemma parse_size_unit n u m : unit_of u = Some m -> u < 128 -> n <= u64_max -> n * m <= u64_max ->
  parse_size (show n ++ [u]) = Ok (n * m).
Proof.
  intros Hu Hlt Hn Hm. unfold parse_size. rewrite last_byte_snoc by exact Hlt. rewrite Hu.
  rewrite trim_end_app by (cbn; unfold is_unit; rewrite Hu; reflexivity).
  rewrite show_no_unit by (intros d Hd; unfold is_unit; rewrite digit_unit by exact Hd; reflexivity).
  rewrite parse_show by exact Hn. replace (n * m <=? u64_max) with true by lia. reflexivity.
Qed.
Lemma parse_size_other n u : unit_of u = None -> is_digit u = false -> u < 128 -> n <= u64_max ->
  parse_size (show n ++ [u]) = Ok n.
Proof.
  intros Hu Hd Hlt Hn. unfold parse_size. rewrite last_byte_snoc by exact Hlt. rewrite Hu, Hd.
  rewrite trim_end_app by (cbn; rewrite N.eqb_refl; reflexivity).
  rewrite show_no_unit by (intros d Hd'; apply N.eqb_neq; congruence).
  rewrite parse_show by exact Hn. reflexivity.
Qed.

Lemma size_loop_spec us : forall d, us <> [] ->
  exists k, (k < length us)%nat /\ snd (size_loop us d) = nth k us [] /\ d = fst (size_loop us d) * 1024 ^ N.of_nat k.
Proof.
  induction us as [|u us IH]; intros d H; [contradiction|]. cbn [size_loop].
  destruct us as [|u' us].
  - exists 0%nat. cbn. split; [lia|]. split; [reflexivity|]. change (N.of_nat 0) with 0. rewrite N.pow_0_r. lia.
  - destruct ((1024 <? d) && (d mod 1024 =? 0)) eqn:E.
    + destruct (IH (d / 1024)) as (k & A & B & C); [discriminate|]. exists (S k). split; [cbn [length] in *; lia|].
      split; [exact B|]. replace (N.of_nat (S k)) with (N.succ (N.of_nat k)) by lia. rewrite N.pow_succ_r'. 
      replace d with (1024 * (d / 1024)) at 1 by lia. rewrite C at 1. lia.
    + exists 0%nat. cbn. split; [lia|]. split; [reflexivity|]. change (N.of_nat 0) with 0. rewrite N.pow_0_r. lia.
Qed.
Lemma show_size_form n : exists d u k, show_size n = show d ++ u /\ n = d * 1024 ^ k /\
  ((u = [] /\ k = 0) \/ exists c, u = [c] /\ unit_of c = Some (1024 ^ k) /\ (97 <= c <= 122)).
Proof.
  unfold show_size. destruct (size_loop_spec size_unit n) as (k & A & B & C); [discriminate|].
  destruct (size_loop size_unit n) as [d u]. cbn [fst snd] in *. exists d, u, (N.of_nat k).
  split; [reflexivity|]. split; [exact C|]. subst u.
  do 6 (destruct k as [|k]; [first [left; split; reflexivity
    | right; eexists; split; [reflexivity|]; split; [reflexivity|lia]]|]). cbn in A. lia.
Qed.
Lemma size_roundtrip n : n <= u64_max -> parse_size (show_size n) = Ok n.
Proof.
  intros H. destruct (show_size_form n) as (d & u & k & E & En & Hu). rewrite E.
  assert (Hd : d <= n). { pose proof (N.pow_nonzero 1024 k ltac:(lia)). nia. }
  destruct Hu as [[-> ->]|(c & -> & Hc & Hr)].
  - rewrite app_nil_r, parse_size_show by lia. f_equal. rewrite N.pow_0_r in En. lia.
  - rewrite (parse_size_unit d c (1024 ^ k)) by (try exact Hc; lia). f_equal. lia.
Qed.

(* characters that appear in printed numbers and units *)
Definition lower_or_digit (s : text) : bool := forallb (fun c => is_digit c || ((97 <=? c) && (c <=? 122))) s.
Lemma show_lod n : lower_or_digit (show n) = true.
Proof.
  apply forallb_forall. intros c Hc. pose proof (show_digits n) as H. rewrite forallb_forall in H. rewrite (H c Hc). reflexivity.
Qed.
Lemma lod_app a b : lower_or_digit (a ++ b) = lower_or_digit a && lower_or_digit b.
Proof. apply forallb_app. Qed.
Lemma lod_no_char d s : is_digit d = false -> (97 <=? d) && (d <=? 122) = false -> lower_or_digit s = true -> no_char d s = true.
Proof.
  intros H1 H2 H. apply forallb_forall. intros c Hc. unfold lower_or_digit in H. rewrite forallb_forall in H. specialize (H c Hc).
  destruct (N.eqb_spec c d) as [->|]; [|reflexivity]. rewrite H1, H2 in H. discriminate.
Qed.
Lemma lod_no_ws s : lower_or_digit s = true -> no_ws s = true.
Proof.
  intros H. apply forallb_forall. intros c Hc. unfold lower_or_digit in H. rewrite forallb_forall in H. specialize (H c Hc).
  unfold is_digit, is_ws in *. lia.
Qed.
Lemma show_size_lod n : lower_or_digit (show_size n) = true.
Proof.
  destruct (show_size_form n) as (d & u & k & E & _ & Hu). rewrite E, lod_app, show_lod.
  destruct Hu as [[-> _]|(c & -> & _ & Hr)]; [reflexivity|]. cbn. unfold is_digit. lia.
Qed.

(* ---- durations ------------------------------------------------------------------- *)
Lemma suffix_digit p x n : is_digit x = false -> strip_suffix (p ++ [x]) (show n) = None.
Proof.
  intros H. destruct (show_snoc n) as (s & d & -> & Hd & _). apply strip_suffix_last. intros ->. congruence.
Qed.
Lemma trim_show p x n : is_digit x = false -> trim_end_str (p ++ [x]) (show n ++ p ++ [x]) = show n.
Proof. intros H. apply trim_end_str_once; [intros E; apply app_eq_nil in E as [_ E]; discriminate|]. apply suffix_digit. exact H. Qed.
Lemma ends_other p x s y : x <> y -> ends_with (p ++ [x]) (s ++ [y]) = false.
Proof. intros H. unfold ends_with. rewrite strip_suffix_last by exact H. reflexivity. Qed.

Lemma parse_dur_nonempty s : s <> [] -> parse_dur s =
    if ends_with (txt "ms") s then
      do n <- times (or_one (parse_uint u64_max (trim_end_str (txt "ms") s))) 1000000 ; Ok (n mod 2 ^ 32)
    else if ends_with (txt "h") s then
      do n <- times (or_one (parse_uint u64_max (trim_end_str (txt "h") s))) 3600 ; Ok (n * ns)
    else if ends_with (txt "min") s then
      do n <- times (or_one (parse_uint u64_max (trim_end_str (txt "min") s))) 60 ; Ok (n * ns)
    else if ends_with (txt "s") s then
      Ok (or_one (parse_uint u64_max (trim_end_str (txt "s") s)) * ns)
    else Ok (or_one (parse_uint u64_max s) * ns).
Proof. destruct s; [contradiction|reflexivity]. Qed.
Lemma show_app_nonempty n s : show n ++ s <> [].
Proof. intros E. apply app_eq_nil in E as [E _]. exact (show_nonempty n E). Qed.

Lemma ends_h_ms a : ends_with (txt "ms") (a ++ txt "h") = false.
Proof. change (txt "ms") with (txt "m" ++ [115]). change (txt "h") with [104]. apply ends_other. lia. Qed.

Lemma parse_ms n : n <= u64_max -> n * 1000000 <= u64_max -> parse_dur (show n ++ txt "ms") = Ok (n * 1000000 mod 2 ^ 32).
Proof.
  intros H1 H2. rewrite parse_dur_nonempty by apply show_app_nonempty. rewrite ends_with_app.
  change (txt "ms") with (txt "m" ++ [115]) at 1 2. rewrite trim_show by reflexivity.
  rewrite parse_show by exact H1. cbn [or_one]. unfold times. replace (n * 1000000 <=? u64_max) with true by lia. reflexivity.
Qed.
Lemma parse_h n : n * 3600 <= u64_max -> parse_dur (show n ++ txt "h") = Ok (n * 3600 * ns).
Proof.
  intros H. rewrite parse_dur_nonempty by apply show_app_nonempty.
  rewrite ends_h_ms, ends_with_app. change (txt "h") with ([] ++ [104]) at 1 2. rewrite trim_show by reflexivity.
  rewrite parse_show by lia. cbn [or_one]. unfold times. replace (n * 3600 <=? u64_max) with true by lia. reflexivity.
Qed.
Lemma parse_min n : n * 60 <= u64_max -> parse_dur (show n ++ txt "min") = Ok (n * 60 * ns).
Proof.
  intros H. rewrite parse_dur_nonempty by apply show_app_nonempty.
  assert (ends_with (txt "ms") (show n ++ txt "min") = false) as ->.
  { change (txt "ms") with (txt "m" ++ [115]). change (txt "min") with (txt "mi" ++ [110]). rewrite app_assoc. apply ends_other. lia. }
  assert (ends_with (txt "h") (show n ++ txt "min") = false) as ->.
  { change (txt "h") with ([] ++ [104]). change (txt "min") with (txt "mi" ++ [110]). rewrite app_assoc. apply ends_other. lia. }
  rewrite ends_with_app. change (txt "min") with (txt "mi" ++ [110]) at 1 2. rewrite trim_show by reflexivity.
  rewrite parse_show by lia. cbn [or_one]. unfold times. replace (n * 60 <=? u64_max) with true by lia. reflexivity.
Qed.
Lemma parse_s n : n <= u64_max -> parse_dur (show n ++ txt "s") = Ok (n * ns).
Proof.
  intros H. rewrite parse_dur_nonempty by apply show_app_nonempty.
  assert (ends_with (txt "ms") (show n ++ txt "s") = false) as ->.
  { destruct (show_snoc n) as (s & d & E & Hd & _). rewrite E. unfold ends_with, strip_suffix.
    change (txt "ms") with [109; 115]. change (txt "s") with [115].
    rewrite !rev_app_distr. cbn [rev app strip_prefix]. change (115 =? 115) with true. cbn match.
    destruct (N.eqb_spec 109 d) as [<- |]; [discriminate Hd|reflexivity]. }
  assert (ends_with (txt "h") (show n ++ txt "s") = false) as ->.
  { change (txt "h") with ([] ++ [104]). change (txt "s") with [115]. apply ends_other. lia. }
  assert (ends_with (txt "min") (show n ++ txt "s") = false) as ->.
  { change (txt "min") with (txt "mi" ++ [110]). change (txt "s") with [115]. apply ends_other. lia. }
  rewrite ends_with_app. change (txt "s") with ([] ++ [115]) at 1 2. rewrite trim_show by reflexivity.
  rewrite parse_show by lia. reflexivity.
Qed.

(* the exact result of printing and reading back *)
Lemma dur_exact d : d / ns <= u64_max -> d / 1000000 * 1000000 <= u64_max \/ d mod ns < 1000000 ->
  exists t, show_dur d = Ok t /\
  parse_dur t = Ok (if d mod ns <? 1000000 then d / ns * ns else (d / 1000000 * 1000000) mod 2 ^ 32).
Proof.
  intros Hs Hm. unfold show_dur. unfold ns in *.
  destruct (N.ltb_spec 0 (d mod 1000000000 / 1000000)) as [H|H].
  - replace (d mod 1000000000 <? 1000000) with false by lia.
    destruct Hm as [Hm|Hm]; [|lia]. pose proof u64_max_val.
    replace (d mod 1000000000 / 1000000 + d / 1000000000 * 1000) with (d / 1000000) by lia.
    replace (d / 1000000 <=? u64_max) with true by lia. eexists. split; [reflexivity|].
    apply parse_ms; lia.
  - replace (d mod 1000000000 <? 1000000) with true by lia.
    destruct ((3600 <=? d / 1000000000) && (d / 1000000000 mod 3600 =? 0)) eqn:E1;
      [|destruct ((60 <=? d / 1000000000) && (d / 1000000000 mod 60 =? 0)) eqn:E2]; (eexists; split; [reflexivity|]).
    + rewrite parse_h by lia. unfold ns. f_equal. lia.
    + rewrite parse_min by lia. unfold ns. f_equal. lia.
    + rewrite parse_s by lia. reflexivity.
Qed.
Lemma show_dur_lod d t : show_dur d = Ok t -> lower_or_digit t = true.
Proof.
  unfold show_dur. destruct (_ <? _).
  - destruct (_ <=? _); [|discriminate]. intros H; injection H as <-. rewrite lod_app, show_lod. reflexivity.
  - destruct (_ && _); [intros H; injection H as <-; rewrite lod_app, show_lod; reflexivity|].
    destruct (_ && _); intros H; injection H as <-; rewrite lod_app, show_lod; reflexivity.
Qed.
Lemma show_dur_nonempty d t : show_dur d = Ok t -> t <> [].
Proof.
  unfold show_dur. destruct (_ <? _).
  - destruct (_ <=? _); [|discriminate]. intros H; injection H as <-. apply show_app_nonempty.
  - destruct (_ && _); [intros H; injection H as <-; apply show_app_nonempty|].
    destruct (_ && _); intros H; injection H as <-; apply show_app_nonempty.
Qed.

(* ---- limit zones ------------------------------------------------------------------ *)
Lemma rate_roundtrip n d t : n <= u64_max -> show_dur d = Ok t -> parse_dur t = Ok d ->
  parse_rate (show n ++ txt "r/" ++ t) = Ok (n, d).
Proof.
  intros Hn Ht Hd. unfold parse_rate.
  assert (E : split_on 47 (show n ++ txt "r/" ++ t) = [show n ++ [114]; t]).
  { change (txt "r/" ++ t) with ([114] ++ 47 :: t). rewrite app_assoc. rewrite split_on_app.
    - rewrite split_on_one; [reflexivity|]. apply lod_no_char; [reflexivity|reflexivity|]. apply (show_dur_lod d). exact Ht.
    - apply lod_no_char; [reflexivity|reflexivity|]. rewrite lod_app, show_lod. reflexivity. }
  rewrite E. cbn [map].
  rewrite trim_no_ws by (apply lod_no_ws; rewrite lod_app, show_lod; reflexivity).
  rewrite trim_no_ws by (apply lod_no_ws; apply (show_dur_lod d); exact Ht).
  destruct (show n ++ txt "r/" ++ t) eqn:E0; [destruct (show_app_nonempty _ _ E0)|].
  rewrite parse_size_other by (try reflexivity; exact Hn). cbn [rbind]. rewrite Hd. reflexivity.
Qed.
Lemma zone_roundtrip dr z t : word (lz_key z) = true -> lz_limit z <= u64_max -> lz_nums z <= u64_max ->
  show_dur (lz_per z) = Ok t -> parse_dur t = Ok (lz_per z) ->
  exists s, show_zone z = Ok s /\ parse_zone dr s = Ok z.
Proof.
  intros Hk Hl Hn Ht Hd. unfold show_zone. rewrite Ht. cbn [rbind]. eexists. split; [reflexivity|].
  unfold parse_zone.
  assert (E : split_ws (lz_key z ++ txt " limit=" ++ show_size (lz_limit z) ++ txt " rate=" ++ show (lz_nums z) ++ txt "r/" ++ t)
    = [lz_key z; txt "limit=" ++ show_size (lz_limit z); txt "rate=" ++ show (lz_nums z) ++ txt "r/" ++ t]).
  { change (txt " limit=" ++ show_size (lz_limit z) ++ txt " rate=" ++ show (lz_nums z) ++ txt "r/" ++ t)
      with (32 :: (txt "limit=" ++ show_size (lz_limit z) ++ 32 :: (txt "rate=" ++ show (lz_nums z) ++ txt "r/" ++ t))).
    rewrite split_ws_app by (try exact Hk; reflexivity). rewrite app_assoc.
    rewrite split_ws_app; [|cbn [word txt app]; change (no_ws (txt "limit=" ++ show_size (lz_limit z)) = true)|reflexivity].
    - rewrite split_ws_one; [reflexivity|]. cbn [word txt app].
      change (no_ws (txt "rate=" ++ show (lz_nums z) ++ txt "r/" ++ t) = true).
      rewrite !no_ws_app. rewrite (lod_no_ws (show (lz_nums z))) by apply show_lod.
      rewrite (lod_no_ws t) by (apply (show_dur_lod (lz_per z)); exact Ht). reflexivity.
    - rewrite no_ws_app, (lod_no_ws _ (show_size_lod _)). reflexivity. }
  rewrite E. cbn [zone_args].
  assert (E1 : map trim (split_on 61 (txt "limit=" ++ show_size (lz_limit z))) = [txt "limit"; show_size (lz_limit z)]).
  { change (txt "limit=" ++ show_size (lz_limit z)) with (txt "limit" ++ 61 :: show_size (lz_limit z)).
    rewrite split_on_app by reflexivity. rewrite split_on_one by (apply lod_no_char; try reflexivity; apply show_size_lod).
    cbn [map]. rewrite (trim_no_ws (show_size _)) by (apply lod_no_ws; apply show_size_lod). reflexivity. }
  assert (E2 : map trim (split_on 61 (txt "rate=" ++ show (lz_nums z) ++ txt "r/" ++ t)) = [txt "rate"; show (lz_nums z) ++ txt "r/" ++ t]).
  { change (txt "rate=" ++ show (lz_nums z) ++ txt "r/" ++ t) with (txt "rate" ++ 61 :: (show (lz_nums z) ++ txt "r/" ++ t)).
    rewrite split_on_app by reflexivity. rewrite split_on_one.
    - cbn [map]. rewrite (trim_no_ws (show _ ++ _)); [reflexivity|]. rewrite !no_ws_app.
      rewrite (lod_no_ws (show (lz_nums z))) by apply show_lod.
      rewrite (lod_no_ws t) by (apply (show_dur_lod (lz_per z)); exact Ht). reflexivity.
    - rewrite !no_char_app. rewrite (lod_no_char 61 (show (lz_nums z))) by (try reflexivity; apply show_lod).
      rewrite (lod_no_char 61 t) by (try reflexivity; apply (show_dur_lod (lz_per z)); exact Ht). reflexivity. }
  rewrite E1. change (leqb (txt "limit") (txt "limit")) with true. cbn match.
  rewrite size_roundtrip by exact Hl. cbn [rbind zone_args]. rewrite E2.
  change (leqb (txt "rate") (txt "limit")) with false. change (leqb (txt "rate") (txt "rate")) with true. cbn match.
  rewrite (rate_roundtrip (lz_nums z) (lz_per z) t Hn Ht Hd). cbn [rbind fst snd]. destruct z; reflexivity.
Qed.
Lemma lreq_roundtrip r : no_char 32 (lr_zone r) = true -> no_char 61 (lr_zone r) = true -> trim (lr_zone r) = lr_zone r ->
  lr_burst r <= u64_max -> parse_lreq (show_lreq r) = Ok r.
Proof.
  intros H1 H2 H3 H4. unfold parse_lreq, show_lreq.
  assert (E : split_on 32 (txt "zone=" ++ lr_zone r ++ txt " brust=" ++ show (lr_burst r)) = [txt "zone=" ++ lr_zone r; txt "brust=" ++ show (lr_burst r)]).
  { change (txt " brust=" ++ show (lr_burst r)) with (32 :: (txt "brust=" ++ show (lr_burst r))). rewrite app_assoc.
    rewrite split_on_app by (rewrite no_char_app, H1; reflexivity). rewrite split_on_one; [reflexivity|].
    rewrite no_char_app, (lod_no_char 32 (show _)) by (try reflexivity; apply show_lod). reflexivity. }
  rewrite E. cbn [lreq_args].
  change (txt "zone=" ++ lr_zone r) with (txt "zone" ++ 61 :: lr_zone r).
  rewrite split_on_app by reflexivity. rewrite split_on_one by exact H2. cbn [map]. rewrite H3.
  change (leqb (trim (txt "zone")) (txt "zone")) with true. cbn match. cbn [lreq_args].
  change (txt "brust=" ++ show (lr_burst r)) with (txt "brust" ++ 61 :: show (lr_burst r)).
  rewrite split_on_app by reflexivity. rewrite split_on_one by (apply lod_no_char; try reflexivity; apply show_lod). cbn [map].
  rewrite trim_no_ws by reflexivity. rewrite trim_no_ws by (apply lod_no_ws; apply show_lod).
  change (leqb (txt "brust") (txt "zone")) with false. change (leqb (txt "brust") (txt "brust")) with true. cbn match.
  rewrite parse_show by exact H4. destruct r; reflexivity.
Qed.

(* ---- logs --------------------------------------------------------------------------- *)
Lemma level_roundtrip l : parse_level (show_level l) = Some l /\ parse_level (map lower (show_level l)) = Some l /\
  no_char 32 (show_level l) = true.
Proof. destruct l; vm_compute; repeat split. Qed.
Lemma log_roundtrip l : no_char 32 (l_name l) = true -> no_char 32 (l_format l) = true -> l_format l <> [] ->
  parse_log (show_log l) = Ok l.
Proof.
  intros H1 H2 H3. unfold show_log, parse_log. destruct l as [nm fm lv]. cbn [l_name l_format l_level] in *.
  destruct (level_roundtrip lv) as (L1 & _ & L3). destruct fm as [|c fm]; [contradiction|].
  destruct (level_eqb lv LTrace) eqn:E.
  - change ([32] ++ c :: fm) with (32 :: c :: fm). rewrite split_on_app by exact H1. rewrite split_on_one by exact H2.
    destruct lv; try discriminate. reflexivity.
  - change ([32] ++ (c :: fm) ++ [32] ++ show_level lv) with (32 :: ((c :: fm) ++ 32 :: show_level lv)).
    rewrite split_on_app by exact H1. rewrite split_on_app by exact H2. rewrite split_on_one by exact L3. rewrite L1. reflexivity.
Qed.
Lemma error_log_roundtrip l : no_char 32 (l_name l) = true -> l_format l = [] ->
  exists l', parse_log (show_log l) = Ok l' /\ as_error l' = l.
Proof.
  intros H1 H2. unfold show_log, parse_log. destruct l as [nm fm lv]. cbn [l_name l_format l_level] in *. subst fm.
  destruct (level_roundtrip lv) as (_ & L2 & L3).
  change ([32] ++ show_level lv) with (32 :: show_level lv). rewrite split_on_app by exact H1. rewrite split_on_one by exact L3.
  eexists. split; [reflexivity|]. unfold as_error. cbn [l_format l_name]. rewrite L2. destruct lv; reflexivity.
Qed.

(* ---- headers ------------------------------------------------------------------------ *)

Lemma span_len p s : (length (snd (span p s)) <= length s)%nat.
Proof.
  induction s as [|c s IH]; cbn [span]; [cbn; lia|]. destruct (p c); [|cbn; lia].
  destruct (span p s) as [a b]. cbn [snd length] in *. lia.
Qed.
Lemma tokens_fuel f : forall g s, (length s <= f)%nat -> (length s <= g)%nat -> tokens f s = tokens g s.
Proof.
  induction f as [|f IH]; intros g s Hf Hg.
  - destruct s; [|cbn in Hf; lia]. destruct g; reflexivity.
  - destruct s as [|c s]; [destruct g; reflexivity|]. destruct g as [|g]; [cbn in Hg; lia|]. cbn [length] in *.
    cbn [tokens]. destruct (is_plain c) eqn:Ec.
    + cbn [span]. rewrite Ec. pose proof (span_len is_plain s) as Hs. destruct (span is_plain s) as [a b]. cbn [snd] in Hs.
      f_equal. apply IH; lia.
    + destruct ((c =? 34) || (c =? 39)); [|apply IH; lia].
      pose proof (span_len (fun x => negb (x =? c)) s) as Hs. destruct (span _ s) as [a b]. cbn [snd] in Hs.
      destruct b as [|x b]; [apply IH; lia|]. f_equal. cbn [length] in Hs. apply IH; lia.
Qed.
Lemma span_all p a r : forallb p a = true -> (match r with [] => True | c :: _ => p c = false end) -> span p (a ++ r) = (a, r).
Proof.
  intros H Hr. induction a as [|c a IH]; cbn [app span].
  - destruct r as [|c r]; [reflexivity|]. cbn [span]. rewrite Hr. reflexivity.
  - cbn in H. apply andb_true_iff in H as [H1 H2]. rewrite H1, IH by exact H2. reflexivity.
Qed.
Lemma split_word w r : plain w = true -> (match r with [] => True | c :: _ => is_plain c = false end) ->
  split_by_whitespace (w ++ r) = w :: split_by_whitespace r.
Proof.
  intros Hw Hr. unfold split_by_whitespace. destruct w as [|c w]; [discriminate|]. cbn [plain] in Hw.
  cbn [app length tokens]. pose proof Hw as Hc. cbn in Hc. apply andb_true_iff in Hc as [Hc _]. rewrite Hc.
  change (c :: w ++ r) with ((c :: w) ++ r). rewrite (span_all is_plain _ _ Hw Hr). f_equal.
  apply tokens_fuel; rewrite ?app_length; lia.
Qed.
Lemma split_blank c r : is_ws c = true -> split_by_whitespace (c :: r) = split_by_whitespace r.
Proof.
  intros H. unfold split_by_whitespace. cbn [length tokens]. unfold is_plain. rewrite H. cbn [negb andb].
  destruct (N.eqb_spec c 34) as [-> |]; [discriminate H|]. destruct (N.eqb_spec c 39) as [-> |]; [discriminate H|]. reflexivity.
Qed.
Lemma split_nil : split_by_whitespace [] = [].
Proof. reflexivity. Qed.
Lemma split_words2 a b : plain a = true -> plain b = true -> split_by_whitespace (a ++ 32 :: b) = [a; b].
Proof.
  intros Ha Hb. rewrite split_word by (try exact Ha; reflexivity). rewrite split_blank by reflexivity.
  rewrite <- (app_nil_r b) at 1. rewrite split_word by (try exact Hb; exact I). reflexivity.
Qed.

Lemma header_roundtrip h : plain (ch_key h) = true ->
  (plain (ch_val h) = true \/ (ch_val h = [] /\ ch_oper h = ODel /\ ch_proxy h = false)) ->
  ch_oper h <> ODefault -> (ch_oper h = OReplace -> ch_proxy h = false -> ch_key h <> [45]) ->
  parse_header (show_header h) = Ok h.
Proof.
  intros Hk Hv Ho Hx. destruct h as [o p k v]. cbn [ch_oper ch_proxy ch_key ch_val] in *.
  assert (Hne : show_header (CHeader o p k v) <> []).
  { unfold show_header. cbn [ch_oper ch_proxy ch_key ch_val]. destruct p, o; try discriminate; try congruence. }
  unfold parse_header. destruct (show_header (CHeader o p k v)) as [|c0 s0] eqn:Es; [contradiction|].
  rewrite <- Es. clear Es Hne c0 s0.
  unfold show_header. cbn [ch_oper ch_proxy ch_key ch_val].
  assert (Hp : plain (txt "proxy") = true) by reflexivity.
  destruct Hv as [Hv|(-> & -> & ->)].
  - destruct p, o; try congruence; cbn [show_oper];
      try (change (txt "proxy " ++ [43] ++ [32] ++ k ++ [32] ++ v) with (txt "proxy" ++ 32 :: ([43] ++ 32 :: (k ++ 32 :: v))));
      try (change (txt "proxy " ++ [45] ++ [32] ++ k ++ [32] ++ v) with (txt "proxy" ++ 32 :: ([45] ++ 32 :: (k ++ 32 :: v))));
      try (change (txt "proxy " ++ [] ++ [32] ++ k ++ [32] ++ v) with (txt "proxy" ++ 32 :: (32 :: (k ++ 32 :: v))));
      try (change ([43] ++ [32] ++ k ++ [32] ++ v) with ([43] ++ 32 :: (k ++ 32 :: v)));
      try (change ([45] ++ [32] ++ k ++ [32] ++ v) with ([45] ++ 32 :: (k ++ 32 :: v)));
      try (change ([] ++ [32] ++ k ++ [32] ++ v) with (32 :: (k ++ 32 :: v))).
    + rewrite split_word by reflexivity. rewrite split_blank by reflexivity. rewrite split_word by reflexivity.
      rewrite split_blank by reflexivity. rewrite split_words2 by assumption. reflexivity.
    + rewrite split_word by reflexivity. rewrite split_blank by reflexivity. rewrite split_word by reflexivity.
      rewrite split_blank by reflexivity. rewrite split_words2 by assumption. reflexivity.
    + rewrite split_word by reflexivity. rewrite !split_blank by reflexivity. rewrite split_words2 by assumption. reflexivity.
    + rewrite split_word by reflexivity. rewrite split_blank by reflexivity. rewrite split_words2 by assumption. reflexivity.
    + rewrite split_word by reflexivity. rewrite split_blank by reflexivity. rewrite split_words2 by assumption. reflexivity.
    + rewrite split_blank by reflexivity. rewrite split_words2 by assumption.
      rewrite (eqb_neq_of leqb leqb_ok) by (apply Hx; reflexivity). reflexivity.
  - cbn [show_oper]. change ([45] ++ [32] ++ k ++ [32] ++ []) with ([45] ++ 32 :: (k ++ [32])).
    rewrite split_word by reflexivity. rewrite split_blank by reflexivity.
    rewrite split_word by (try exact Hk; reflexivity). rewrite split_blank by reflexivity. reflexivity.
Qed.

(* rules that do not survive *)
Lemma header_lost k v : plain k = true ->
  (plain v = true -> parse_header (show_header (CHeader ODefault true k v)) = Ok (CHeader OReplace true k v) /\
    (k <> [45] -> parse_header (show_header (CHeader ODefault false k v)) = Ok (CHeader OReplace false k v))) /\
  parse_header (show_header (CHeader ODel true k [])) = Ok (CHeader OReplace true [45] k) /\
  (forall a b, plain a = true -> plain b = true -> parse_header (show_header (CHeader OAdd false k (a ++ 32 :: b))) = Err tt).
Proof.
  intros Hk. assert (X : forall s, s <> [] -> parse_header s = match split_by_whitespace s with
    | [] => Panic
    | [a; b; c; d] => if leqb a (txt "proxy") then Ok (CHeader (parse_oper b) true c d) else Err tt
    | [a; b; c] => if leqb a (txt "proxy") then Ok (CHeader OReplace true b c) else Ok (CHeader (parse_oper a) false b c)
    | [a; b] => if leqb a [45] then Ok (CHeader ODel false b []) else Ok (CHeader OReplace false a b)
    | _ => Err tt end) by (intros [|? ?] H; [destruct H; reflexivity|reflexivity]).
  assert (Hp : plain (txt "proxy") = true) by reflexivity.
  split; [|split].
  - intros Hv. split.
    + change (show_header (CHeader ODefault true k v)) with (txt "proxy" ++ 32 :: (k ++ 32 :: v)). rewrite X by discriminate.
      rewrite split_word by reflexivity. rewrite split_blank by reflexivity. rewrite split_words2 by assumption. reflexivity.
    + intros Hx. change (show_header (CHeader ODefault false k v)) with (k ++ 32 :: v). rewrite X by (destruct k; discriminate).
      rewrite split_words2 by assumption. rewrite (eqb_neq_of leqb leqb_ok) by exact Hx. reflexivity.
  - change (show_header (CHeader ODel true k [])) with (txt "proxy" ++ 32 :: ([45] ++ 32 :: (k ++ [32]))). rewrite X by discriminate.
    rewrite split_word by reflexivity. rewrite split_blank by reflexivity. rewrite split_word by reflexivity. rewrite split_blank by reflexivity.
    rewrite split_word by (try exact Hk; reflexivity). rewrite split_blank by reflexivity. reflexivity.
  - intros a b Ha Hb. change (show_header (CHeader OAdd false k (a ++ 32 :: b))) with ([43] ++ 32 :: (k ++ 32 :: (a ++ 32 :: b))). rewrite X by discriminate.
    rewrite split_word by reflexivity. rewrite split_blank by reflexivity. rewrite split_word by (try exact Hk; reflexivity). rewrite split_blank by reflexivity.
    rewrite split_words2 by assumption. reflexivity.
Qed.

(* rewriting *)
Section RewriteFacts.
  Context (same : text -> text -> bool) (conv : text -> text).
  Lemma filter_filter_neg {A} (p : A -> bool) l : filter p (filter (fun x => negb (p x)) l) = [] /\
    filter (fun x => negb (p x)) (filter (fun x => negb (p x)) l) = filter (fun x => negb (p x)) l.
  Proof.
    induction l as [|x l [IH1 IH2]]; [split; reflexivity|]. cbn [filter]. destruct (p x) eqn:E; cbn [negb filter]; [split; assumption|].
    rewrite E. cbn [negb]. split; [exact IH1|rewrite IH2; reflexivity].
  Qed.
  Lemma push_values k v h : same k k = true -> values same k (h_push k v h) = values same k h ++ [v] /\ others same k (h_push k v h) = others same k h.
  Proof.
    intros Hr. unfold values, others, h_push. rewrite !filter_app, map_app. cbn [filter fst]. rewrite Hr. cbn [negb map snd].
    split; [reflexivity|apply app_nil_r].
  Qed.
  Lemma contains_values k h : h_contains same k h = negb (match values same k h with [] => true | _ => false end).
  Proof.
    unfold h_contains, values. induction h as [|[a b] h IH]; [reflexivity|]. cbn [existsb filter fst].
    destruct (same k a); [reflexivity|exact IH].
  Qed.
  Lemma rewrite_spec r h : same (ch_key r) (ch_key r) = true ->
    others same (ch_key r) (rewrite_header same conv r h) = others same (ch_key r) h /\
    values same (ch_key r) (rewrite_header same conv r h) =
      match ch_oper r with
      | OAdd | OReplace => values same (ch_key r) h ++ [conv (ch_val r)]
      | ODel => []
      | ODefault => match values same (ch_key r) h with [] => [conv (ch_val r)] | vs => vs end
      end.
  Proof.
    intros Hr. unfold rewrite_header, rewrite_with. destruct (ch_oper r).
    - destruct (push_values (ch_key r) (conv (ch_val r)) h Hr). split; assumption.
    - unfold h_remove, others, values. destruct (filter_filter_neg (fun kv => same (ch_key r) (fst kv)) h) as [A B].
      rewrite A, B. split; reflexivity.
    - rewrite contains_values. destruct (values same (ch_key r) h) as [|x xs] eqn:E; cbn [negb].
      + destruct (push_values (ch_key r) (conv (ch_val r)) h Hr) as [A B]. rewrite E in A. split; assumption.
      + split; [reflexivity|exact E].
    - destruct (push_values (ch_key r) (conv (ch_val r)) h Hr). split; assumption.
  Qed.
  (* a list of rules leaves every header alone that no applied rule names *)
  Lemma filter_and {A} (p q : A -> bool) l : filter (fun x => p x && q x) l = filter q (filter p l).
  Proof.
    induction l as [|x l IH]; [reflexivity|]. cbn [filter]. destruct (p x); cbn [andb filter]; [|exact IH].
    destruct (q x); [f_equal|]; exact IH.
  Qed.
  Lemma untouched_cons k ks h : untouched same (k :: ks) h = untouched same ks (others same k h).
  Proof. unfold untouched, others. cbn [forallb]. apply filter_and. Qed.
  Lemma others_untouched k ks h : others same k (untouched same ks h) = untouched same ks (others same k h).
  Proof.
    unfold untouched, others. induction h as [|x h IH]; [reflexivity|]. cbn [filter].
    destruct (forallb _ ks) eqn:E1, (negb (same k (fst x))) eqn:E2; cbn [filter]; rewrite ?E1, ?E2; try exact IH.
    f_equal; exact IH.
  Qed.
  Lemma rules_untouched rs h : (forall r, In r rs -> same (ch_key r) (ch_key r) = true) ->
    untouched same (map ch_key rs) (fold_left (fun acc r => rewrite_header same conv r acc) rs h) = untouched same (map ch_key rs) h.
  Proof.
    revert h. induction rs as [|r rs IH]; intros h Hr; [reflexivity|]. cbn [map fold_left].
    rewrite !untouched_cons, <- !others_untouched. rewrite IH by (intros x Hx; apply Hr; right; exact Hx).
    rewrite !others_untouched. rewrite (proj1 (rewrite_spec r h (Hr r (or_introl eq_refl)))). reflexivity.
  Qed.
End RewriteFacts.
Lemma fold_filter {A B} (p : B -> bool) (f : A -> B -> A) l : forall a,
  fold_left (fun acc b => if p b then f acc b else acc) l a = fold_left f (filter p l) a.
Proof. induction l as [|b l IH]; intros a; [reflexivity|]. cbn [fold_left filter]. destruct (p b); cbn [fold_left]; apply IH. Qed.
Lemma fold_filter_neg {A B} (p : B -> bool) (f : A -> B -> A) l : forall a,
  fold_left (fun acc b => if p b then acc else f acc b) l a = fold_left f (filter (fun b => negb (p b)) l) a.
Proof. induction l as [|b l IH]; intros a; [reflexivity|]. cbn [fold_left filter]. destruct (p b); cbn [negb fold_left]; apply IH. Qed.

(* ---- more facts for the properties ---------------------------------------------------- *)
Lemma dur_iff d : d / ns <= u64_max ->
  ((exists t, show_dur d = Ok t /\ parse_dur t = Ok d) <-> (d mod ns = 0 \/ d mod 1000000 = 0 /\ d < 2 ^ 32)).
Proof.
  intros H. change (2 ^ 32) with 4294967296.
  destruct (N.leb_spec (d / 1000000 * 1000000) u64_max) as [Hm|Hm].
  - destruct (dur_exact d H (or_introl Hm)) as (t & Ht & Hp). change (2 ^ 32) with 4294967296 in Hp.
    split.
    + intros (t' & Ht' & Hp'). rewrite Ht in Ht'. injection Ht' as <-. rewrite Hp in Hp'. injection Hp' as E. clear Hp Ht.
      unfold ns in *. destruct (N.ltb_spec (d mod 1000000000) 1000000) as [L|L]; [left; lia|right]. lia.
    + intros C. exists t. split; [exact Ht|]. rewrite Hp. f_equal. unfold ns in *.
      destruct (N.ltb_spec (d mod 1000000000) 1000000) as [L|L].
      * destruct C as [C|[C _]]; lia.
      * destruct C as [C|[C C2]]; [lia|]. rewrite N.mod_small by lia. lia.
  - pose proof u64_max_val as U. split.
    + intros (t & Ht & Hp). left. unfold show_dur in Ht.
      destruct (N.ltb_spec 0 (d mod ns / 1000000)) as [L|L].
      * exfalso. destruct (N.leb_spec (d mod ns / 1000000 + d / ns * 1000) u64_max) as [L2|L2]; [|discriminate].
        assert (Et : t = show (d mod ns / 1000000 + d / ns * 1000) ++ txt "ms") by congruence. clear Ht. subst t.
        rewrite parse_dur_nonempty in Hp by apply show_app_nonempty. rewrite ends_with_app in Hp.
        rewrite (trim_show (txt "m") 115 (d mod ns / 1000000 + d / ns * 1000) eq_refl : trim_end_str (txt "ms") (show _ ++ txt "ms") = _) in Hp.
        rewrite parse_show in Hp by exact L2. cbn [or_one] in Hp. unfold times in Hp.
        replace ((d mod ns / 1000000 + d / ns * 1000) * 1000000 <=? u64_max) with false in Hp by (unfold ns in *; lia). discriminate.
      * destruct (dur_exact d H) as (t' & Ht' & Hp'); [right; unfold ns in *; lia|].
        unfold show_dur in Ht'. replace (0 <? d mod ns / 1000000) with false in Ht' by lia.
        rewrite Ht in Ht'. injection Ht' as <-. rewrite Hp in Hp'. injection Hp' as E. unfold ns in *.
        replace (d mod 1000000000 <? 1000000) with true in E by lia. lia.
    + intros C. destruct (dur_exact d H) as (t & Ht & Hp); [right; unfold ns in *; lia|].
      exists t. split; [exact Ht|]. rewrite Hp. f_equal. unfold ns in *. replace (d mod 1000000000 <? 1000000) with true by lia.
      destruct C as [C|[C C2]]; lia.
Qed.

Lemma parse_dur_no_ms_panic s n : n <= u64_max -> s = show n ++ txt "s" -> parse_dur s = Ok (n * ns).
Proof. intros H ->. apply parse_s. exact H. Qed.

Lemma flag_roundtrip b : 0 < b < 8 -> parse_flag (show_flag b) = Ok b.
Proof.
  intros H. assert (E : b = 1 \/ b = 2 \/ b = 3 \/ b = 4 \/ b = 5 \/ b = 6 \/ b = 7) by lia.
  repeat (destruct E as [->|E]; [vm_compute; reflexivity|]). subst b. vm_compute. reflexivity.
Qed.
Lemma flag_json b : b < 32 -> flag_of_json (flag_to_json b) = b.
Proof.
  intros H. unfold flag_of_json, flag_to_json, f_from_bits, f_all. change 31 with (N.ones 5).
  rewrite N.land_ones. change (2 ^ 5) with 32. rewrite N.mod_small by exact H. rewrite N.eqb_refl. reflexivity.
Qed.
(* what the text form of any set keeps: the three low bits *)
Lemma flag_text_low b : b < 32 -> b mod 8 <> 0 -> parse_flag (show_flag b) = Ok (b mod 8).
Proof.
  intros H H0.
  assert (G : forall k, (k < 32)%nat -> let b := N.of_nat k in
    (if b mod 8 =? 0 then True else parse_flag (show_flag b) = Ok (b mod 8))).
  { intros k Hk. do 32 (destruct k as [|k]; [vm_compute; try exact I; reflexivity|]). lia. }
  specialize (G (N.to_nat b) ltac:(lia)). cbv zeta in G. rewrite N2Nat.id in G.
  replace (b mod 8 =? 0) with false in G by lia. exact G.
Qed.
Lemma parse_flag_panic s : parse_flag s <> Panic.
Proof. unfold parse_flag. destruct s; discriminate. Qed.
Lemma parse_log_panic s : parse_log s <> Panic.
Proof. unfold parse_log. destruct (split_on 32 s) as [|a [|b l]]; discriminate. Qed.
Lemma parse_lreq_panic s : parse_lreq s <> Panic.
Proof.
  unfold parse_lreq. generalize (split_on 32 s) as vs, ([] : text) as z, 0 as b.
  induction vs as [|v vs IH]; intros z b; cbn [lreq_args]; [discriminate|].
  destruct (map trim (split_on 61 v)) as [|k [|w l]]; try discriminate.
  destruct (leqb k (txt "zone")); [apply IH|]. destruct (leqb k (txt "brust")); [|discriminate].
  destruct (parse_uint u64_max w); [apply IH|discriminate].
Qed.
Lemma parse_header_panic s : parse_header s = Panic <-> s <> [] /\ split_by_whitespace s = [].
Proof.
  unfold parse_header. destruct s as [|c s]; [split; [discriminate|intros [[] _]; reflexivity]|].
  destruct (split_by_whitespace (c :: s)) as [|a [|b [|d [|e [|f l]]]]]; split; try discriminate;
    try (intros [_ H]; discriminate H); try (intros _; split; [discriminate|reflexivity]); try reflexivity.
  - destruct (leqb a [45]); discriminate.
  - destruct (leqb a (txt "proxy")); discriminate.
  - destruct (leqb a (txt "proxy")); discriminate.
Qed.
Lemma parse_size_panic s : parse_size s = Panic <->
  exists b m n, last_byte s = Some b /\ unit_of b = Some m /\ parse_uint u64_max (trim_end_p is_unit s) = Some n /\ u64_max < n * m.
Proof.
  unfold parse_size. split.
  - destruct (last_byte s) as [b|]; [|discriminate]. destruct (unit_of b) as [m|] eqn:Eb.
    + destruct (parse_uint _ _) as [n|] eqn:E; [|discriminate]. destruct (N.leb_spec (n * m) u64_max) as [L|L]; [discriminate|].
      intros _. exists b, m, n. auto.
    + destruct (is_digit b); destruct (parse_uint _ _); discriminate.
  - intros (b & m & n & -> & Hm & Hn & L). rewrite Hm, Hn. replace (n * m <=? u64_max) with false by lia. reflexivity.
Qed.

Lemma times_panic o m : 1 <= m <= u64_max -> times (or_one o) m = Panic <-> exists n, o = Some n /\ u64_max < n * m.
Proof.
  intros Hm. unfold times. destruct o as [n|]; cbn [or_one]; split.
  - destruct (N.leb_spec (n * m) u64_max); [discriminate|]. intros _. exists n. split; [reflexivity|lia].
  - intros (n0 & E & L). injection E as <-. replace (n * m <=? u64_max) with false by lia. reflexivity.
  - replace (1 * m <=? u64_max) with true by lia. discriminate.
  - intros (n0 & E & _). discriminate.
Qed.
Lemma rbind_panic_ok {A B} (r : res unit A) (f : A -> B) : (do n <- r ; Ok (f n)) = Panic <-> r = Panic.
Proof. destruct r; cbn; split; intros H; congruence. Qed.
Lemma parse_dur_panic s : parse_dur s = Panic <->
  exists u m n, written_unit s = Some (u, m) /\ parse_uint u64_max (trim_end_str u s) = Some n /\ u64_max < n * m.
Proof.
  unfold parse_dur, written_unit. destruct s as [|c s'].
  - split; [discriminate|]. intros (u & m & n & H & _). discriminate.
  - set (s := c :: s'). cbn [find_unit].
    destruct (ends_with (txt "ms") s); [|destruct (ends_with (txt "h") s); [|destruct (ends_with (txt "min") s)]].
    1-3: rewrite rbind_panic_ok, times_panic by (unfold u64_max; lia); split;
      [intros (n & E & L); eexists _, _, n; split; [reflexivity|]; split; [exact E|exact L]
      |intros (u & m & n & E & P & L); injection E as <- <-; exists n; split; [exact P|exact L]].
    destruct (ends_with (txt "s") s); (split; [discriminate|intros (u & m & n & H & _); discriminate]).
Qed.
Lemma parse_rate_panic s : parse_rate s = Panic <->
  exists a b more, map trim (split_on 47 s) = a :: b :: more /\ s <> [] /\
    (parse_size a = Panic \/ (exists n, parse_size a = Ok n) /\ parse_dur b = Panic).
Proof.
  unfold parse_rate. destruct s as [|c s'].
  - split; [discriminate|]. intros (a & b & more & _ & H & _). congruence.
  - destruct (map trim (split_on 47 (c :: s'))) as [|a [|b more]].
    + split; [discriminate|]. intros (? & ? & ? & H & _). discriminate.
    + split; [discriminate|]. intros (? & ? & ? & H & _). discriminate.
    + split.
      * intros H. exists a, b, more. split; [reflexivity|]. split; [discriminate|].
        destruct (parse_size a) as [n|e|]; cbn [rbind] in H; [|discriminate|left; reflexivity].
        right. split; [eauto|]. destruct (parse_dur b); cbn [rbind] in H; congruence.
      * intros (a0 & b0 & m0 & E & _ & [H|[[n H] H2]]); injection E as <- <- <-; rewrite H; cbn [rbind]; [reflexivity|].
        rewrite H2. reflexivity.
Qed.
Lemma zone_args_panic vs : forall l r, zone_args vs l r = Panic <->
  exists vs1 v vs2 k w more, vs = vs1 ++ v :: vs2 /\ (exists x, zone_args vs1 l r = Ok x) /\
    map trim (split_on 61 v) = k :: w :: more /\
    (k = txt "limit" /\ parse_size w = Panic \/ k = txt "rate" /\ parse_rate w = Panic).
Proof.
  induction vs as [|v vs IH]; intros l r.
  - split; [discriminate|]. intros ([|] & v & vs2 & k & w & more & E & _); discriminate.
  - cbn [zone_args]. split.
    + intros H. destruct (map trim (split_on 61 v)) as [|k [|w more]] eqn:Ev; try discriminate H.
      destruct (leqb k (txt "limit")) eqn:E1; [apply leqb_ok in E1|destruct (leqb k (txt "rate")) eqn:E2; [apply leqb_ok in E2|discriminate H]].
      * destruct (parse_size w) as [n|e|] eqn:Ew; cbn [rbind] in H; [|discriminate|].
        -- apply IH in H as (vs1 & v' & vs2 & k' & w' & more' & -> & [x Hx] & A & B).
           exists (v :: vs1), v', vs2, k', w', more'. split; [reflexivity|]. split; [|split; [exact A|exact B]].
           exists x. cbn [zone_args]. rewrite Ev, E1, leqb_refl, Ew. exact Hx.
        -- exists [], v, vs, k, w, more. split; [reflexivity|]. split; [eexists; reflexivity|]. split; [exact Ev|].
           left. split; assumption.
      * assert (N1 : leqb (txt "rate") (txt "limit") = false) by reflexivity.
        destruct (parse_rate w) as [n|e|] eqn:Ew; cbn [rbind] in H; [|discriminate|].
        -- apply IH in H as (vs1 & v' & vs2 & k' & w' & more' & -> & [x Hx] & A & B).
           exists (v :: vs1), v', vs2, k', w', more'. split; [reflexivity|]. split; [|split; [exact A|exact B]].
           exists x. cbn [zone_args]. rewrite Ev, E2, N1, leqb_refl, Ew. exact Hx.
        -- exists [], v, vs, k, w, more. split; [reflexivity|]. split; [eexists; reflexivity|]. split; [exact Ev|].
           right. split; assumption.
    + intros (vs1 & v' & vs2 & k & w & more & E & [x Hx] & Ev & H). destruct vs1 as [|y vs1]; cbn [app] in E.
      * injection E as <- <-. rewrite Ev. destruct H as [[-> H]|[-> H]].
        -- rewrite leqb_refl, H. reflexivity.
        -- change (leqb (txt "rate") (txt "limit")) with false. cbv iota. rewrite leqb_refl, H. reflexivity.
      * injection E as <- ->. cbn [zone_args] in Hx.
        destruct (map trim (split_on 61 v)) as [|k' [|w' more']]; try discriminate Hx.
        destruct (leqb k' (txt "limit")); [|destruct (leqb k' (txt "rate")); [|discriminate Hx]].
        -- destruct (parse_size w') as [n| |]; cbn [rbind] in *; try discriminate Hx. apply IH.
           exists vs1, v', vs2, k, w, more. split; [reflexivity|]. split; [eauto|]. split; assumption.
        -- destruct (parse_rate w') as [n| |]; cbn [rbind] in *; try discriminate Hx. apply IH.
           exists vs1, v', vs2, k, w, more. split; [reflexivity|]. split; [eauto|]. split; assumption.
Qed.
Lemma parse_zone_panic dr s : parse_zone dr s = Panic <->
  split_ws s = [] \/
  exists key vs1 v vs2 k w more, split_ws s = key :: vs1 ++ v :: vs2 /\ (exists x, zone_args vs1 0 dr = Ok x) /\
    map trim (split_on 61 v) = k :: w :: more /\
    (k = txt "limit" /\ parse_size w = Panic \/ k = txt "rate" /\ parse_rate w = Panic).
Proof.
  unfold parse_zone. destruct (split_ws s) as [|key vs].
  - split; [intros _; left; reflexivity|reflexivity].
  - assert (E : (do (limit, rate) <- zone_args vs 0 dr ; Ok (LZone key limit (fst rate) (snd rate))) = Panic
                <-> zone_args vs 0 dr = Panic).
    { destruct (zone_args vs 0 dr) as [[l r]| |]; cbn; split; congruence. }
    rewrite E, zone_args_panic. split.
    + intros (vs1 & v & vs2 & k & w & more & -> & A & B & C). right. exists key, vs1, v, vs2, k, w, more. auto.
    + intros [F|(key' & vs1 & v & vs2 & k & w & more & F & A & B & C)]; [discriminate|].
      injection F as <- ->. exists vs1, v, vs2, k, w, more. auto.
Qed.

(* ---- words of a header rule ------------------------------------------------------------ *)
Lemma split_quoted q w r : q = 34 \/ q = 39 -> ~ In q w -> split_by_whitespace (q :: w ++ q :: r) = w :: split_by_whitespace r.
Proof.
  intros Hq Hw. unfold split_by_whitespace. cbn [length tokens].
  assert (E : is_plain q = false) by (destruct Hq as [-> | ->]; reflexivity). rewrite E.
  assert (E2 : (q =? 34) || (q =? 39) = true) by (destruct Hq as [-> | ->]; reflexivity). rewrite E2.
  rewrite (span_all (fun x => negb (x =? q)) w (q :: r)).
  - f_equal. apply tokens_fuel; rewrite ?app_length; cbn [length]; lia.
  - apply forallb_forall. intros x Hx. destruct (N.eqb_spec x q) as [->|]; [contradiction|reflexivity].
  - rewrite N.eqb_refl. reflexivity.
Qed.
Lemma ws_not_plain c : is_ws c = true -> is_plain c = false.
Proof. intros H. unfold is_plain. rewrite H. reflexivity. Qed.
Lemma split_blanks b r : Forall (fun c => is_ws c = true) b -> split_by_whitespace (b ++ r) = split_by_whitespace r.
Proof. induction 1 as [|c b Hc _ IH]; [reflexivity|]. cbn [app]. rewrite split_blank by exact Hc. exact IH. Qed.
Lemma split_written w t r : written w t -> (match r with [] => True | c :: _ => is_plain c = false end) ->
  split_by_whitespace (t ++ r) = w :: split_by_whitespace r.
Proof.
  intros [[-> H]|(q & Hq & Hw & ->)] Hr; [apply split_word; assumption|].
  cbn [app]. rewrite <- app_assoc. apply split_quoted; assumption.
Qed.
Lemma split_line ws s : line ws s -> split_by_whitespace s = ws /\ s <> [].
Proof.
  induction 1 as [w t H|w t b ws s H Hb Hbs _ [IH _]].
  - split.
    + rewrite <- (app_nil_r t), split_written with (w := w); [reflexivity|exact H|exact I].
    + destruct H as [[-> H]|(q & _ & _ & ->)]; [destruct w; discriminate|discriminate].
  - split.
    + rewrite split_written with (w := w); [rewrite split_blanks by exact Hbs; rewrite IH; reflexivity|exact H|].
      destruct b as [|c b]; [contradiction|]. cbn. inversion Hbs; subst. apply ws_not_plain. assumption.
    + destruct H as [[-> H]|(q & _ & _ & ->)]; [destruct w; discriminate|discriminate].
Qed.
Lemma parse_line ws s : line ws s -> parse_header s =
  match ws with
  | [] => Panic
  | [a; b; c; d] => if leqb a (txt "proxy") then Ok (CHeader (parse_oper b) true c d) else Err tt
  | [a; b; c] => if leqb a (txt "proxy") then Ok (CHeader OReplace true b c) else Ok (CHeader (parse_oper a) false b c)
  | [a; b] => if leqb a [45] then Ok (CHeader ODel false b []) else Ok (CHeader OReplace false a b)
  | _ => Err tt
  end.
Proof.
  intros H. destruct (split_line ws s H) as [E Hn]. unfold parse_header. rewrite E. destruct s; [contradiction|]. reflexivity.
Qed.
Lemma operators_parse t o : In (t, o) operators -> parse_oper t = o /\ t <> txt "proxy".
Proof. intros H. repeat (destruct H as [H|H]; [injection H as <- <-; split; [reflexivity|discriminate]|]). contradiction. Qed.
Lemma lreq_any_order z n : no_char 32 z = true -> no_char 61 z = true -> trim z = z -> n <= u64_max ->
  parse_lreq (txt "brust=" ++ show n ++ txt " zone=" ++ z) = Ok (LReq z n).
Proof.
  intros H1 H2 H3 H4. unfold parse_lreq.
  assert (E : split_on 32 (txt "brust=" ++ show n ++ txt " zone=" ++ z) = [txt "brust=" ++ show n; txt "zone=" ++ z]).
  { change (txt " zone=" ++ z) with (32 :: (txt "zone=" ++ z)). rewrite app_assoc.
    rewrite split_on_app by (rewrite no_char_app, (lod_no_char 32 (show _)) by (try reflexivity; apply show_lod); reflexivity).
    rewrite split_on_one; [reflexivity|]. rewrite no_char_app, H1. reflexivity. }
  rewrite E. cbn [lreq_args].
  change (txt "brust=" ++ show n) with (txt "brust" ++ 61 :: show n).
  rewrite split_on_app by reflexivity. rewrite split_on_one by (apply lod_no_char; try reflexivity; apply show_lod). cbn [map].
  rewrite trim_no_ws by reflexivity. rewrite trim_no_ws by (apply lod_no_ws; apply show_lod).
  change (leqb (txt "brust") (txt "zone")) with false. change (leqb (txt "brust") (txt "brust")) with true. cbn match.
  rewrite parse_show by exact H4. cbn [lreq_args].
  change (txt "zone=" ++ z) with (txt "zone" ++ 61 :: z).
  rewrite split_on_app by reflexivity. rewrite split_on_one by exact H2. cbn [map]. rewrite H3.
  change (leqb (trim (txt "zone")) (txt "zone")) with true. reflexivity.
Qed.
