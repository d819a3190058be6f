(* C167: timeouts written as numbers, in either format of configuration file. *)
From Coq Require Import Lia.
From Coq Require Import String ZArith.
From Verif Require Import Base Text TextOps ConfModel ConfProofs NuModel.
Open Scope N_scope.

(* ---- specification -------------------------------------------------------------------- *)
(* the eight timeouts *)
Definition timeout_names : list text :=
  map txt ["client_timeout"; "client_read_timeout"; "client_write_timeout"; "client_ka_timeout";
           "proxy_timeout"; "proxy_connect_timeout"; "proxy_read_timeout"; "proxy_write_timeout"]%string.
(* k is the name of a timeout and v is written for it *)
Definition written (sec : list (text * scalar)) (k : text) (v : scalar) : Prop := In k timeout_names /\ lookup leqb k sec = Some v.
(* n seconds in nanoseconds *)
Definition seconds (n : N) : N := n * 1000000000.
(* ---- lemmas ------------------------------------------------------------------------- *)
Lemma plain_seconds n : n <= u64_max -> parse_dur (show n) = Ok (seconds n).
Proof.
  intros H. unfold parse_dur. destruct (show n) as [|c s] eqn:E; [exfalso; apply (show_app_nonempty n []); rewrite E; reflexivity|]. rewrite <- E.
  destruct (show_snoc n) as (t & d & E1 & D & _). rewrite E1.
  assert (G : forall u c, is_digit c = false -> ends_with (u ++ [c]) (t ++ [d]) = false).
  { intros u c0 C. apply ends_other. congruence. }
  rewrite (G (txt "m") 115 eq_refl : ends_with (txt "ms") _ = false), (G [] 104 eq_refl : ends_with (txt "h") _ = false),
    (G (txt "mi") 110 eq_refl : ends_with (txt "min") _ = false), (G [] 115 eq_refl : ends_with (txt "s") _ = false).
  rewrite <- E1, parse_show by exact H. reflexivity.
Qed.
Lemma negative_one z : (z < 0)%Z -> parse_dur (show_z z) = Ok (seconds 1).
Proof.
  intros H. unfold show_z. replace (z <? 0)%Z with true by lia. set (n := Z.to_N (- z)). unfold parse_dur.
  destruct (show_snoc n) as (t & d & E1 & D & _). rewrite E1, app_comm_cons.
  assert (G : forall u c, is_digit c = false -> ends_with (u ++ [c]) ((45 :: t) ++ [d]) = false).
  { intros u c0 C. apply ends_other. congruence. }
  rewrite (G (txt "m") 115 eq_refl : ends_with (txt "ms") _ = false), (G [] 104 eq_refl : ends_with (txt "h") _ = false),
    (G (txt "mi") 110 eq_refl : ends_with (txt "min") _ = false), (G [] 115 eq_refl : ends_with (txt "s") _ = false).
  cbn [app]. rewrite parse_digits_head by (try reflexivity; discriminate). reflexivity.
Qed.
Lemma named_timeouts k : In k timeout_names <-> In k timeouts.
Proof. unfold timeout_names, timeouts. cbn [map In]. tauto. Qed.
Lemma timeouts_nodup : NoDup timeouts.
Proof. unfold timeouts. repeat (constructor; [intros H; repeat (destruct H as [H|H]; [discriminate H|]); exact H|]). constructor. Qed.
(* what is read of a list of names *)
Lemma read_ok f sec ks r : NoDup ks -> read_timeouts f sec ks = Ok r -> forall k, In k ks ->
  match lookup leqb k sec with
  | Some v => exists d, read_as parse_dur f v = Ok d /\ lookup leqb k r = Some d
  | None => lookup leqb k r = None
  end.
Proof.
  revert r. induction ks as [|x ks IH]; intros r ND H k I1; [destruct I1|]. inversion ND as [|? ? N1 N2]; subst. cbn [read_timeouts] in H.
  assert (O : forall r, read_timeouts f sec ks = Ok r -> lookup leqb x r = None).
  { intros r0 R0. apply (lookup_None_notin leqb leqb_ok). intros I2. apply N1. clear - I2 R0. revert r0 R0 I2. induction ks as [|y ks IH]; intros r0 R0 I2.
    - injection R0 as <-. destruct I2.
    - cbn [read_timeouts] in R0. destruct (lookup leqb y sec); [|right; eauto]. destruct (read_as parse_dur f s) as [d|e|]; cbn [rbind] in R0; try discriminate.
      destruct (read_timeouts f sec ks) as [q|e|]; cbn [rbind] in R0; try discriminate. injection R0 as <-. destruct I2 as [I2|I2]; [left; exact I2|right; eauto]. }
  destruct (lookup leqb x sec) as [v|] eqn:L.
  - destruct (read_as parse_dur f v) as [d|e|] eqn:E; cbn [rbind] in H; try discriminate. destruct (read_timeouts f sec ks) as [q|e|] eqn:Q; cbn [rbind] in H; try discriminate.
    injection H as <-. cbn [lookup]. destruct I1 as [<-|I1].
    + rewrite L, leqb_refl. eauto.
    + destruct (leqb k x) eqn:KX; [apply leqb_ok in KX; subst; contradiction|]. apply (IH q N2 eq_refl k I1).
  - destruct I1 as [<-|I1]; [rewrite L; apply O; exact H|]. apply (IH r N2 H k I1).
Qed.
Lemma read_all f sec ks : (forall k v, In k ks -> lookup leqb k sec = Some v -> exists d, read_as parse_dur f v = Ok d) -> exists r, read_timeouts f sec ks = Ok r.
Proof.
  induction ks as [|x ks IH]; intros H; [eexists; reflexivity|]. cbn [read_timeouts]. destruct IH as (r & R); [intros k v I1; apply H; right; exact I1|].
  destruct (lookup leqb x sec) as [v|] eqn:L; [|eauto]. destruct (H x v (or_introl eq_refl) L) as (d & D). rewrite D, R. cbn [rbind]. eauto.
Qed.
Lemma section_ok f sec r k v : read_section f sec = Ok r -> written sec k v -> exists d, read_as parse_dur f v = Ok d /\ lookup leqb k r = Some d.
Proof. intros H (I1 & L). apply named_timeouts in I1. pose proof (read_ok f sec timeouts r timeouts_nodup H k I1) as G. rewrite L in G. exact G. Qed.

(* ---- theorems ----------------------------------------------------------------------- *)
(* C167: in a toml file a number is that many seconds, also 0 *)
Theorem C167_number_partial : forall sec r k n, read_section Toml sec = Ok r -> written sec k (SInt (Z.of_N n)) -> lookup leqb k r = Some (seconds n).
Proof.
  intros sec r k n H W. destruct (section_ok Toml sec r k _ H W) as (d & D & ->). f_equal. unfold read_as, deliver in D.
  destruct ((- 2 ^ 63 <=? Z.of_N n) && (Z.of_N n <? 2 ^ 63))%Z eqn:B; [|discriminate]. cbn [helper] in D. unfold show_z in D.
  replace (Z.of_N n <? 0)%Z with false in D by lia. rewrite N2Z.id, plain_seconds in D by (unfold u64_max; lia). congruence.
Qed.
(* and a section of such numbers is accepted *)
Theorem C167_accepted_partial : forall sec, (forall k v, written sec k v -> exists n, v = SInt (Z.of_N n) /\ n < 2 ^ 63) -> exists r, read_section Toml sec = Ok r.
Proof.
  intros sec H. apply read_all. intros k v I1 L. destruct (H k v (conj (proj2 (named_timeouts k) I1) L)) as (n & -> & B). exists (seconds n). unfold read_as, deliver.
  replace ((- 2 ^ 63 <=? Z.of_N n) && (Z.of_N n <? 2 ^ 63))%Z with true by lia. cbn [helper]. unfold show_z.
  replace (Z.of_N n <? 0)%Z with false by lia. rewrite N2Z.id. apply plain_seconds. unfold u64_max. lia.
Qed.
(* false of the code: a yaml file with such a number is refused *)
Theorem C167_yaml_refuted : forall sec k n, written sec k (SInt (Z.of_N n)) -> forall r, read_section Yaml sec <> Ok r.
Proof.
  intros sec k n W r H. destruct (section_ok Yaml sec r k _ H W) as (d & D & _). unfold read_as, deliver in D.
  replace (0 <=? Z.of_N n)%Z with true in D by lia. destruct (Z.of_N n <? 2 ^ 64)%Z; discriminate.
Qed.
(* false of the code: in both formats a negative number, if the file is accepted, is one second *)
Theorem C167_negative_refuted : forall f sec r k z, read_section f sec = Ok r -> written sec k (SInt z) -> (z < 0)%Z -> lookup leqb k r = Some (seconds 1).
Proof.
  intros f sec r k z H W N. destruct (section_ok f sec r k _ H W) as (d & D & ->). f_equal.
  assert (E : helper parse_dur (VI64 z) = Ok (seconds 1)) by (apply negative_one; exact N). unfold read_as, deliver in D. destruct f.
  - replace (0 <=? z)%Z with false in D by lia. destruct (- 2 ^ 63 <=? z)%Z; [|discriminate]. congruence.
  - destruct ((- 2 ^ 63 <=? z) && (z <? 2 ^ 63))%Z; [|discriminate]. congruence.
Qed.
(* texts mean the same in both formats, and what they mean is the duration they spell *)
Theorem C167_texts : forall sec, (forall k v, written sec k v -> exists s, v = SText s) ->
  read_section Yaml sec = read_section Toml sec /\
  forall f r k s, read_section f sec = Ok r -> written sec k (SText s) -> exists d, parse_dur s = Ok d /\ lookup leqb k r = Some d.
Proof.
  intros sec H. split.
  - unfold read_section. assert (G : forall ks, (forall k, In k ks -> In k timeouts) -> read_timeouts Yaml sec ks = read_timeouts Toml sec ks); [|apply G; auto].
    induction ks as [|k ks IH]; intros I1; [reflexivity|]. cbn [read_timeouts]. rewrite IH by (intros x X; apply I1; right; exact X).
    destruct (lookup leqb k sec) as [v|] eqn:L; [|reflexivity]. destruct (H k v) as (s & ->); [split; [apply named_timeouts, I1; left; reflexivity|exact L]|]. reflexivity.
  - intros f r k s R W. destruct (section_ok f sec r k _ R W) as (d & D & L). exists d. split; [exact D|exact L].
Qed.
(* so a toml file may give the number with or without quotes *)
Theorem C167_quotes_partial : forall sec sec' r k n, read_section Toml sec = Ok r -> written sec k (SInt (Z.of_N n)) -> written sec' k (SText (show n)) ->
  forall f r', read_section f sec' = Ok r' -> lookup leqb k r' = lookup leqb k r.
Proof.
  intros sec sec' r k n R W W' f r' R'. rewrite (C167_number_partial sec r k n R W). destruct (section_ok f sec' r' k _ R' W') as (d & D & ->). f_equal.
  assert (B : n <= u64_max).
  { destruct (section_ok Toml sec r k _ R W) as (d0 & D0 & _). unfold read_as, deliver in D0. destruct ((- 2 ^ 63 <=? Z.of_N n) && (Z.of_N n <? 2 ^ 63))%Z eqn:E; [|discriminate]. unfold u64_max. lia. }
  unfold read_as, deliver, helper in D. rewrite plain_seconds in D by exact B. congruence.
Qed.
(* a timeout that is not written is not set, and nothing else is *)
Theorem C167_unwritten : forall f sec r k, read_section f sec = Ok r -> (forall v, ~ written sec k v) -> lookup leqb k r = None.
Proof.
  intros f sec r k H N. destruct (in_dec (list_eq_dec N.eq_dec) k timeouts) as [I1|I1].
  - pose proof (read_ok f sec timeouts r timeouts_nodup H k I1) as G. destruct (lookup leqb k sec) as [v|] eqn:L; [|exact G]. destruct (N v (conj (proj2 (named_timeouts k) I1) L)).
  - apply (lookup_None_notin leqb leqb_ok). intros I2. apply I1. unfold read_section in H. clear - H I2. revert r H I2. generalize timeouts. induction l as [|y ks IH]; intros r0 R0 I2.
    + injection R0 as <-. destruct I2.
    + cbn [read_timeouts] in R0. destruct (lookup leqb y sec); [|right; eauto]. destruct (read_as parse_dur f s) as [d|e|]; cbn [rbind] in R0; try discriminate.
      destruct (read_timeouts f sec ks) as [q|e|]; cbn [rbind] in R0; try discriminate. injection R0 as <-. destruct I2 as [I2|I2]; [left; exact I2|right; eauto].
Qed.
(* fractions, truth values, lists and tables are refused *)
Theorem C167_other : forall f sec k, written sec k SOther -> forall r, read_section f sec <> Ok r.
Proof. intros f sec k W r H. destruct (section_ok f sec r k _ H W) as (d & D & _). destruct f; discriminate. Qed.

Example C167_demo :
  let sec := [(txt "client_timeout", SInt 60); (txt "proxy_timeout", SText (txt "5min")); (txt "client_ka_timeout", SInt (-5))] in
  written sec (txt "client_timeout") (SInt (Z.of_N 60)) /\
  read_section Toml sec = Ok [(txt "client_timeout", seconds 60); (txt "client_ka_timeout", seconds 1); (txt "proxy_timeout", seconds 300)] /\
  read_section Yaml sec = Err tt /\
  read_section Yaml [(txt "client_timeout", SText (txt "60"))] = Ok [(txt "client_timeout", seconds 60)].
Proof. split; [split; [left; reflexivity|reflexivity]|]. vm_compute. repeat split. Qed.

Print Assumptions C167_number_partial.
Print Assumptions C167_accepted_partial.
Print Assumptions C167_yaml_refuted.
Print Assumptions C167_negative_refuted.
Print Assumptions C167_texts.
Print Assumptions C167_quotes_partial.
Print Assumptions C167_unwritten.
Print Assumptions C167_other.
