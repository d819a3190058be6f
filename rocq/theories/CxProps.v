(* C25, C26, C54, C55, C56: exactly which texts are sizes, durations, rates and header
   rules, what they mean, and which ones crash. *)
From Coq Require Import String.
From Verif Require Import Base Text TextOps ConfModel ConfSpec ConfProofs CxSpec CxProofs.
Open Scope N_scope.

(* C25: a text is read as a size exactly when it is one that fits 64 bits, with the value
   written; it crashes the reader exactly when it is one that does not; all others are
   refused *)
Theorem C25_exact : forall s,
  (forall v, parse_size s = Ok v <-> size_text s v /\ v < 2 ^ 64) /\
  (parse_size s = Panic <-> exists v, size_text s v /\ 2 ^ 64 <= v) /\
  (parse_size s = Err tt <-> forall v, ~ size_text s v).
Proof.
  intros s. pose proof (parse_size_text s) as H. change (2 ^ 64) with (u64_max + 1). split; [|split].
  - intros v. split.
    + intros E. rewrite E in H. destruct H as [H L]. split; [exact H|lia].
    + intros [T L]. rewrite (size_text_parse s v T). replace (v <=? u64_max) with true by lia. reflexivity.
  - split.
    + intros E. rewrite E in H. destruct H as (v & T & L). exists v. split; [exact T|lia].
    + intros (v & T & L). rewrite (size_text_parse s v T). replace (v <=? u64_max) with false by lia. reflexivity.
  - split.
    + intros E v T. rewrite (size_text_parse s v T) in E. destruct (v <=? u64_max); discriminate E.
    + intros N0. destruct (parse_size s) as [v|[]|].
      * destruct H as [T _]. destruct (N0 v T).
      * reflexivity.
      * destruct H as (v & T & _). destruct (N0 v T).
Qed.
Example C25_exact_example : size_text (txt "12kM") (12 * 1024 ^ 2) /\ parse_size (txt "12kM") = Ok (12 * 1024 ^ 2) /\
  parse_size (txt "+7xx") = Ok 7 /\ parse_size (txt "7 k") = Err tt /\ parse_size (txt "16384p") = Panic.
Proof.
  split; [|vm_compute; auto]. change (txt "12kM") with (txt "12" ++ txt "k" ++ [77]). apply size_unit.
  - split; [|reflexivity]. exists [], (txt "12"). repeat split; [left; reflexivity|discriminate|]. repeat constructor; vm_compute; discriminate.
  - intros c [<-|[]]. exists 1. vm_compute. tauto.
  - vm_compute. tauto.
Qed.

(* C26: every text but the empty one is a duration in exactly one unit; it is read as the
   amount in that unit, except that milliseconds are taken for nanoseconds of 32 bits *)
Theorem C26_exact : forall s,
  (forall v, parse_dur s = Ok v <-> exists u n, dur_text s u n /\ product u n < 2 ^ 64 /\ v = nanoseconds u n) /\
  (parse_dur s = Panic <-> exists u n, dur_text s u n /\ 2 ^ 64 <= product u n) /\
  (parse_dur s = Err tt <-> s = []) /\ (s <> [] -> exists u n, dur_text s u n /\ forall u' n', dur_text s u' n' -> u' = u /\ n' = n).
Proof.
  intros s. change (2 ^ 64) with (u64_max + 1).
  assert (C : s = [] \/ exists u n, dur_text s u n). { destruct s as [|c s]; [left; reflexivity|right; apply dur_total; discriminate]. }
  assert (Z : forall u n, ~ dur_text [] u n) by (intros u n [H _]; contradiction).
  destruct C as [->|(u & n & T)].
  - split; [|split; [|split]]; try (intros v; split; [discriminate|intros (u & n & T & _); destruct (Z u n T)]);
      try (split; [discriminate|intros (u & n & T & _); destruct (Z u n T)]); try (split; reflexivity). intros H. contradiction.
  - assert (F : forall u' n', dur_text s u' n' -> u' = u /\ n' = n) by (intros u' n' T'; exact (dur_fun _ _ _ _ _ T' T)).
    assert (Hs : s <> []) by (intros ->; exact (Z u n T)).
    rewrite (dur_parse s u n T). split; [|split; [|split]].
    + intros v. destruct (N.leb_spec (product u n) u64_max) as [L|L]; split.
      * intros E. injection E as <-. exists u, n. split; [exact T|]. split; [lia|reflexivity].
      * intros (u' & n' & T' & _ & ->). destruct (F _ _ T') as [-> ->]. reflexivity.
      * discriminate.
      * intros (u' & n' & T' & L' & _). destruct (F _ _ T') as [-> ->]. lia.
    + destruct (N.leb_spec (product u n) u64_max) as [L|L]; split.
      * discriminate.
      * intros (u' & n' & T' & L'). destruct (F _ _ T') as [-> ->]. lia.
      * intros _. exists u, n. split; [exact T|lia].
      * reflexivity.
    + destruct (product u n <=? u64_max); (split; [discriminate|intros E; contradiction]).
    + intros _. exists u, n. split; [exact T|exact F].
Qed.
Example C26_exact_example : dur_text (txt "90min") Minute 90 /\ parse_dur (txt "90min") = Ok (5400 * 1000000000) /\
  parse_dur (txt "fast") = Ok 1000000000 /\ parse_dur (txt "5000ms") = Ok 705032704.
Proof.
  split; [|vm_compute; auto]. split; [discriminate|]. split; [exists (txt "90"); reflexivity|]. exists (txt "90"). split.
  - right. split; [discriminate|]. exists 1%nat. split; [reflexivity|]. intros (x & E).
    destruct x as [|a [|b [|d x]]]; discriminate E.
  - left. split; [|reflexivity]. exists [], (txt "90"). repeat split; [left; reflexivity|discriminate|]. repeat constructor; vm_compute; discriminate.
Qed.

(* C54: a rate is a size, a slash and a duration; anything from a second slash on and blanks
   around the two parts are ignored *)
Theorem C54_rates : forall s n d, parse_rate s = Ok (n, d) <->
  exists a b, (s = a ++ 47 :: b \/ exists c, s = a ++ 47 :: b ++ 47 :: c) /\ ~ In 47 a /\ ~ In 47 b /\
    size_text (trim a) n /\ n < 2 ^ 64 /\ exists u m, dur_text (trim b) u m /\ product u m < 2 ^ 64 /\ d = nanoseconds u m.
Proof.
  intros s n d.
  assert (NC : forall t, no_char 47 t = true <-> ~ In 47 t).
  { intros t. unfold no_char. rewrite forallb_forall. split.
    - intros H Hi. specialize (H 47 Hi). discriminate H.
    - intros H x Hx. destruct (N.eqb_spec x 47) as [->|]; [contradiction|reflexivity]. }
  assert (SP : forall t, exists a, ~ In 47 a /\ (t = a \/ exists b, t = a ++ 47 :: b)).
  { induction t as [|c t (a & Na & H)]; [exists []; split; [intros []|left; reflexivity]|].
    destruct (N.eq_dec c 47) as [->|Hc]; [exists []; split; [intros []|right; exists t; reflexivity]|].
    exists (c :: a). split; [intros [E|E]; [congruence|contradiction]|].
    destruct H as [->|(b & ->)]; [left; reflexivity|right; exists b; reflexivity]. }
  assert (Core : forall a b, (exists x y, parse_size (trim a) = Ok x /\ parse_dur (trim b) = Ok y /\ x = n /\ y = d) <->
    size_text (trim a) n /\ n < 2 ^ 64 /\ exists u m, dur_text (trim b) u m /\ product u m < 2 ^ 64 /\ d = nanoseconds u m).
  { intros a b. destruct (C25_exact (trim a)) as [A _]. destruct (C26_exact (trim b)) as [B _]. split.
    - intros (x & y & Ex & Ey & -> & ->). apply A in Ex as [T L]. apply B in Ey. auto.
    - intros (T & L & M). exists n, d. split; [apply A; auto|]. split; [apply B; exact M|auto]. }
  assert (Run : forall a b rest, s <> [] -> map trim (split_on 47 s) = a :: b :: rest ->
    parse_rate s = Ok (n, d) <-> exists x y, parse_size a = Ok x /\ parse_dur b = Ok y /\ x = n /\ y = d).
  { intros a b rest Hs E. unfold parse_rate. destruct s as [|c t]; [contradiction|]. rewrite E.
    destruct (parse_size a) as [x|e|]; cbn; [destruct (parse_dur b) as [y|e|]; cbn|..];
      (split; [intros H; try discriminate H; injection H as <- <-; eexists _, _; eauto|intros (x' & y' & H1 & H2 & H3 & H4); congruence]). }
  split.
  - intros H. destruct (SP s) as (a & Na & Hs). destruct Hs as [->|(t & ->)].
    { unfold parse_rate in H. rewrite split_on_one in H by (apply NC; exact Na). destruct a; discriminate H. }
    destruct (SP t) as (b & Nb & Ht). exists a, b. split; [destruct Ht as [->|(c & ->)]; [left; reflexivity|right; exists c; reflexivity]|].
    split; [exact Na|]. split; [exact Nb|]. apply Core.
    destruct Ht as [->|(c & ->)].
    + refine (proj1 (Run (trim a) (trim b) [] _ _) H); [destruct a; discriminate|].
      rewrite split_on_app by (apply NC; exact Na). rewrite split_on_one by (apply NC; exact Nb). reflexivity.
    + refine (proj1 (Run (trim a) (trim b) (map trim (split_on 47 c)) _ _) H); [destruct a; discriminate|].
      rewrite split_on_app by (apply NC; exact Na). rewrite split_on_app by (apply NC; exact Nb). reflexivity.
  - intros (a & b & Hs & Na & Nb & H). apply Core in H. destruct Hs as [->|(c & ->)].
    + refine (proj2 (Run (trim a) (trim b) [] _ _) H); [destruct a; discriminate|].
      rewrite split_on_app by (apply NC; exact Na). rewrite split_on_one by (apply NC; exact Nb). reflexivity.
    + refine (proj2 (Run (trim a) (trim b) (map trim (split_on 47 c)) _ _) H); [destruct a; discriminate|].
      rewrite split_on_app by (apply NC; exact Na). rewrite split_on_app by (apply NC; exact Nb). reflexivity.
Qed.
Example C54_rates_example : parse_rate (txt "10r / 2s") = Ok (10, 2000000000) /\ trim (txt "10r ") = txt "10r" /\ trim (txt " 2s") = txt "2s" /\
  parse_rate (txt "10r/2s/x") = Ok (10, 2000000000).
Proof. vm_compute. auto. Qed.

(* C55: the lines read as a header rule are exactly those whose words are the words of a
   rule, and every line has exactly one list of words *)
Theorem C55_exact : forall s,
  (forall h, parse_header s = Ok h <-> exists ws, line_words s ws /\ rule_words ws h) /\
  (exists ws, line_words s ws /\ forall ws', line_words s ws' -> ws' = ws).
Proof.
  intros s. split; [intros h; apply header_exact|]. destruct (words_total (length s) s ltac:(lia)) as (ws & W). exists ws. split; [exact W|].
  intros ws' W'. apply words_iff in W, W'. congruence.
Qed.
Example C55_exact_example : exists ws, line_words (txt "proxy + X-From 'a b'") ws /\
  rule_words ws (CHeader OAdd true (txt "X-From") (txt "a b")) /\ length ws = 4%nat.
Proof.
  exists [txt "proxy"; txt "+"; txt "X-From"; txt "a b"]. split; [apply words_iff; vm_compute; reflexivity|]. split; [|reflexivity].
  apply rule_proxy4. left. vm_compute. tauto.
Qed.
(* C56: a line crashes the reader of header rules exactly when it is not empty and consists
   of blanks and quotes, at most one of each kind *)
Theorem C56_headers_partial : forall s, parse_header s = Panic <->
  s <> [] /\ (forall c, In c s -> is_ws c = true \/ quote c) /\ (forall q, quote q -> (count_occ N.eq_dec s q <= 1)%nat).
Proof. intros s. rewrite header_crash, no_words. reflexivity. Qed.
Example C56_headers_example : parse_header (txt "  '") = Panic /\ parse_header (txt " ''") = Err tt.
Proof. vm_compute. auto. Qed.

Print Assumptions C25_exact.
Print Assumptions C26_exact.
Print Assumptions C54_rates.
Print Assumptions C55_exact.
Print Assumptions C56_headers_partial.
