(* C171, C172: the options of the command line. *)
From Coq Require Import String.
From Verif Require Import Base Text TextOps AddrModel AddrProofs ConfModel ConfSpec ConfProofs ArgModel OpModel OpSpec OpProofs OpTables.
Open Scope N_scope.

Section C171.
  Context (parse_ip : text -> option ipaddr) (parse_sa : text -> option saddr) (local4 local6 : option ipaddr).
  Notation reads := (reads parse_ip parse_sa local4 local6).
  Notation read_items := (read_items parse_ip parse_sa local4 local6).
  Notation command_line := (command_line parse_ip parse_sa local4 local6).

  Lemma called_of c a : In (txt (called (command_of c a)), c) cnames.
  Proof. destruct c; unfold cnames; cbn [called command_of map fst snd In]; auto 12. Qed.
  Lemma cnames_one w c : lookup leqb w cnames = Some c -> forall a, w = txt (called (command_of c a)).
  Proof.
    unfold cnames. cbn [map fst snd lookup].
    repeat (match goal with |- context [leqb w ?x] => destruct (leqb w x) eqn:? end; [match goal with H : leqb w _ = true |- _ => apply leqb_ok in H end; intros [= <-] a; assumption|]).
    discriminate.
  Qed.
  Lemma cnames_find c a : lookup leqb (txt (called (command_of c a))) cnames = Some c.
  Proof. destruct c; vm_compute; reflexivity. Qed.

  (* A number is written with decimal digits, perhaps after a plus, and has 32 bits; any
     text is a text. *)
  Theorem C171_number : forall s v, reads TNum s v <->
    exists n d, v = VNum n /\ n < 4294967296 /\ (s = d \/ s = 43 :: d) /\ decimal d n.
  Proof.
    assert (A : forall s acc c, digits acc (s ++ [c]) = match digits acc s with Some m => if is_digit c then Some (m * 10 + (c - 48)) else None | None => None end).
    { induction s as [|x s IH]; intros acc c; cbn [app digits]; [reflexivity|]. destruct (is_digit x); [apply IH|reflexivity]. }
    assert (D : forall c, is_digit c = true <-> 48 <= c <= 57).
    { intros c. unfold is_digit. rewrite andb_true_iff, !N.leb_le. tauto. }
    assert (B : forall s n, decimal s n -> s <> [] /\ digits 0 s = Some n).
    { induction 1 as [c H|s n c H [_ IH] C]; [split; [discriminate|]; cbn [digits]; rewrite (proj2 (D c) H); f_equal; lia|].
      split; [destruct s; discriminate|]. rewrite A, IH, (proj2 (D c) C). f_equal. lia. }
    assert (C : forall s n, s <> [] -> digits 0 s = Some n -> decimal s n).
    { induction s as [|c s IH] using rev_ind; intros n N0 H; [congruence|]. rewrite A in H. destruct (digits 0 s) as [m|] eqn:E; [|discriminate].
      destruct (is_digit c) eqn:Dc; [|discriminate]. injection H as <-. apply D in Dc. destruct s as [|x s].
      - cbn [digits] in E. injection E as <-. cbn [app]. replace (0 * 10 + (c - 48)) with (c - 48) by lia. constructor. exact Dc.
      - replace (m * 10 + (c - 48)) with (10 * m + (c - 48)) by lia. constructor; [apply IH; [discriminate|reflexivity]|exact Dc]. }
    intros s v. unfold OpProofs.reads. cbn [of_text]. unfold parse_uint, or_err. split.
    - intros H. destruct (strip_plus s) as [|c s'] eqn:E; [discriminate|]. destruct (digits 0 (c :: s')) as [n|] eqn:G; [|discriminate].
      destruct (n <=? 2 ^ 32 - 1) eqn:L; [|discriminate]. cbn [rbind] in H. injection H as <-. apply N.leb_le in L. exists n, (c :: s').
      split; [reflexivity|]. split; [change (2 ^ 32 - 1) with 4294967295 in L; lia|]. split; [|apply C; [discriminate|exact G]].
      unfold strip_plus in E. destruct s as [|x s]; [discriminate|]. destruct (x =? 43) eqn:X; [apply N.eqb_eq in X as ->; right; congruence|left; exact E].
    - intros (n & d & -> & L & F & G). destruct (B d n G) as [Nd Dd]. assert (E : strip_plus s = d).
      { destruct F as [->| ->]; [|reflexivity]. destruct d as [|x d]; [congruence|]. unfold strip_plus. destruct (x =? 43) eqn:X; [|reflexivity].
        apply N.eqb_eq in X as ->. cbn [digits] in Dd. discriminate. }
      rewrite E. destruct d as [|x d]; [congruence|]. rewrite Dd. change (2 ^ 32 - 1) with 4294967295.
      destruct (n <=? 4294967295) eqn:X; [reflexivity|]. apply N.leb_gt in X. lia.
  Qed.
  Theorem C171_text : forall s v, reads TStr s v <-> v = VStr s.
  Proof. intros s v. unfold OpProofs.reads. cbn [of_text]. split; congruence. Qed.

  (* A level is named by its word, in whatever letters. *)
  Theorem C171_level : forall s l, reads TLevel s (VLevel l) <-> exists n, In (n, l) level_names /\ Forall2 same_letter s (txt n).
  Proof.
    assert (A : forall a b, same_letter a b <-> upper a = upper b).
    { intros a b. unfold same_letter, upper. destruct ((97 <=? a) && (a <=? 122)) eqn:Ea, ((97 <=? b) && (b <=? 122)) eqn:Eb; lia. }
    assert (B : forall s t, Forall2 same_letter s t <-> map upper s = map upper t).
    { induction s as [|a s IH]; intros [|b t]; split; intros H; try discriminate; try (inversion H; fail); try constructor.
      - inversion H as [|? ? ? ? H1 H2]; subst. cbn [map]. f_equal; [apply A; exact H1|apply IH; exact H2].
      - apply A. cbn [map] in H. congruence.
      - apply IH. cbn [map] in H. congruence. }
    intros s l. unfold OpProofs.reads. cbn [of_text]. unfold parse_filter, parse_level. split.
    - intros H. assert (K : forall n k, In (n, k) level_names -> map upper s = map upper (txt n) -> k = l -> exists n, In (n, l) level_names /\ Forall2 same_letter s (txt n)).
      { intros n k I1 E <-. exists n. split; [exact I1|apply B; exact E]. }
      revert H. generalize (map upper s) K. clear. intros u K.
      repeat match goal with |- context [leqb u ?x] => destruct (leqb u x) eqn:?; [match goal with H : leqb u _ = true |- _ => apply leqb_ok in H; subst u end|] end;
        cbn [option_map or_err rbind]; try discriminate; intros [= <-].
      + apply (K "off"%string FOff); [left; reflexivity|reflexivity|reflexivity].
      + apply (K "error"%string (FLevel LError)); [right; left; reflexivity|reflexivity|reflexivity].
      + apply (K "warn"%string (FLevel LWarn)); [do 2 right; left; reflexivity|reflexivity|reflexivity].
      + apply (K "info"%string (FLevel LInfo)); [do 3 right; left; reflexivity|reflexivity|reflexivity].
      + apply (K "debug"%string (FLevel LDebug)); [do 4 right; left; reflexivity|reflexivity|reflexivity].
      + apply (K "trace"%string (FLevel LTrace)); [do 5 right; left; reflexivity|reflexivity|reflexivity].
    - intros (n & I1 & F). apply B in F. rewrite F. repeat (destruct I1 as [I1|I1]; [injection I1 as <- <-; vm_compute; reflexivity|]). destruct I1.
  Qed.
  Lemma split_plain w : hd_error w <> Some 45 -> split_word w = Some [IWord w].
  Proof.
    intros H. destruct w as [|c w]; [reflexivity|]. cbn [hd_error] in H. unfold split_word. destruct c as [|p]; [reflexivity|].
    do 6 (destruct p as [p|p|]; try reflexivity). now destruct H.
  Qed.
  Lemma split_dash2 r : split_word (45 :: 45 :: r) = match span (fun c => negb (c =? 61)) r with ([], _) => None | (n, []) => Some [ILong n] | (n, _ :: v) => Some [ILong n; IWord v] end.
  Proof. reflexivity. Qed.
  Lemma split_dash1 c r : c <> 45 -> split_word (45 :: c :: r) = match r with [] => Some [IShort c] | 61 :: v => Some [IShort c; IWord v] | _ => None end.
  Proof.
    intros H. unfold split_word. destruct c as [|p]; [reflexivity|]. do 6 (destruct p as [p|p|]; try reflexivity). now destruct H.
  Qed.
  Lemma no_equals n : ~ In 61 n <-> forallb (fun c => negb (c =? 61)) n = true.
  Proof.
    rewrite forallb_forall. split.
    - intros H x X. destruct (N.eqb_spec x 61) as [->|]; [contradiction|reflexivity].
    - intros H X. specialize (H _ X). discriminate.
  Qed.
  Lemma span_cut p s : forall a b, span p s = (a, b) -> s = a ++ b /\ forallb p a = true /\ match b with c :: _ => p c = false | [] => True end.
  Proof.
    induction s as [|c s IH]; intros a b; cbn [span]; [intros [= <- <-]; auto|]. destruct (p c) eqn:Ec.
    - destruct (span p s) as [a0 b0]. intros [= <- <-]. destruct (IH _ _ eq_refl) as (A & B & C). cbn [app forallb]. rewrite Ec, <- A, B. auto.
    - intros [= <- <-]. cbn [app forallb]. auto.
  Qed.
  Lemma spells_split w l : spells w l <-> split_word w = Some l.
  Proof.
    split.
    - intros H. destruct H as [n N E|n v N E|c N|c v N| |w N].
      + change (txt "--" ++ n) with (45 :: 45 :: n). rewrite split_dash2. rewrite <- (app_nil_r n) at 1. rewrite span_all by (try apply no_equals; auto).
        destruct n; [contradiction|reflexivity].
      + change (txt "--" ++ n ++ txt "=" ++ v) with (45 :: 45 :: n ++ 61 :: v). rewrite split_dash2. rewrite span_all by (try apply no_equals; auto).
        destruct n; [contradiction|reflexivity].
      + change (txt "-" ++ [c]) with (45 :: c :: []). now rewrite split_dash1.
      + change (txt "-" ++ [c] ++ txt "=" ++ v) with (45 :: c :: 61 :: v). now rewrite split_dash1.
      + reflexivity.
      + now apply split_plain.
    - destruct w as [|a w]; [intros [= <-]; now apply w_value|]. destruct (N.eq_dec a 45) as [->|D]; [|rewrite split_plain by (cbn; congruence); intros [= <-]; apply w_value; cbn; congruence].
      destruct w as [|b w]; [intros [= <-]; exact w_dash|]. destruct (N.eq_dec b 45) as [->|D].
      + rewrite split_dash2. destruct (span (fun c => negb (c =? 61)) w) as [n t] eqn:E. destruct (span_cut _ _ _ _ E) as (-> & F & G). apply no_equals in F.
        destruct n as [|c n]; [discriminate|]. destruct t as [|e v]; intros [= <-].
        * rewrite app_nil_r. apply (w_long (c :: n)); [discriminate|exact F].
        * destruct (N.eqb_spec e 61) as [->|]; [|discriminate G]. apply (w_long_value (c :: n) v); [discriminate|exact F].
      + rewrite split_dash1 by exact D. destruct w as [|e v]; [intros [= <-]; now apply w_short|]. destruct (N.eq_dec e 61) as [->|De].
        * intros [= <-]. now apply (w_short_value b v).
        * destruct e as [|p]; [discriminate|]. do 6 (destruct p as [p|p|]; try discriminate). now destruct De.
  Qed.
  Lemma spelled_items ws l : spelled ws l <-> items ws = Some l.
  Proof.
    split.
    - intros (ls & F & ->). induction F as [|w x ws ls H F IH]; [reflexivity|]. cbn [items List.concat]. apply spells_split in H. now rewrite H, IH.
    - revert l. induction ws as [|w ws IH]; intros l; cbn [items]; [intros [= <-]; exists []; split; [constructor|reflexivity]|].
      destruct (split_word w) as [a|] eqn:E; [|discriminate]. destruct (items ws) as [b|]; [|discriminate]. intros [= <-].
      destruct (IH b eq_refl) as (ls & F & ->). exists (a :: ls). split; [|reflexivity]. constructor; [now apply spells_split|exact F].
  Qed.

  (* C171, full statement: every option of the command line sets the setting it names, an
     option that is not given leaves its documented default, the order of the options does
     not matter, and a line that says anything else is refused.  Proved for command lines in
     which each word is one option, one value, or an option and its value joined by an equals
     sign; missing: several one-letter options, or one and its value, in one word, and a
     lone double dash, which are bpaf's own.

     An accepted line begins with the command, is a row of the command's options, each
     properly written, and every setting is what is written for its option. *)
  Theorem C171_settings_partial : forall w ws cmd sh, command_line (w :: ws) = Some (Ok (cmd, sh)) ->
    w = txt (called cmd) /\
    exists c os, lookup leqb w cnames = Some c /\
      spelled ws (flat_map written os) /\ Forall (proper (tab c)) os /\ shared_by reads os sh /\ command_by reads os cmd.
  Proof.
    intros w ws cmd sh. unfold OpModel.command_line. destruct (lookup leqb w cnames) as [c|] eqn:L; [|repeat match goal with |- context [match ?x with _ => _ end] => destruct x end; discriminate].
    destruct (items ws) as [l|] eqn:I; [|discriminate]. assert (I0 := proj2 (spelled_items ws l) I).
    destruct (read_items (tab c) l) as [a| |] eqn:R; cbn [rbind]; try discriminate. intros [= <- <-].
    split; [exact (cnames_one w c L a)|]. exists c. apply (read_items_iff _ _ _ _ (tab c) l a (tab_distinct c) (items_gone _ _ I)) in R.
    destruct R as (os & -> & P & F). exists os. split; [reflexivity|]. split; [exact I0|]. split; [exact P|].
    split; [exact (shared_ok _ _ _ _ c os a F)|exact (command_ok _ _ _ _ c os a F)].
  Qed.
  (* A row of properly written options is accepted if what is written for each option can be read. *)
  Theorem C171_accepted_partial : forall c ws os, spelled ws (flat_map written os) -> Forall (proper (tab c)) os ->
    (forall s, In s (tab c) -> exists vs, means reads (s_mult s) (values s os) vs) ->
    exists a cmd sh, command_line (txt (called (command_of c a)) :: ws) = Some (Ok (cmd, sh)).
  Proof.
    intros c ws os I P H. apply spelled_items in I. assert (K : exists a, Forall2 (fun s x => fst x = s_long s /\ means reads (s_mult s) (values s os) (snd x)) (tab c) a).
    { clear - H. revert H. generalize (tab c) as T. induction T as [|s T IH]; intros H; [exists []; constructor|].
      destruct IH as (a & F); [intros x X; apply H; now right|]. destruct (H s (or_introl eq_refl)) as (vs & M). exists ((s_long s, vs) :: a). constructor; [auto|exact F]. }
    destruct K as (a & F). exists a, (command_of c a), (shared_of a). unfold OpModel.command_line. rewrite cnames_find, I.
    assert (R : read_items (tab c) (flat_map written os) = Ok a).
    { apply read_items_iff; [apply tab_distinct|exact (items_gone _ _ I)|]. exists os. split; [reflexivity|]. split; [exact P|exact F]. }
    rewrite R. reflexivity.
  Qed.
  (* Two lines with the same values for each option mean the same, whatever the order. *)
  Theorem C171_order_partial : forall c w ws1 ws2 os1 os2, spelled ws1 (flat_map written os1) -> spelled ws2 (flat_map written os2) ->
    Forall (proper (tab c)) os1 -> Forall (proper (tab c)) os2 -> (forall s, In s (tab c) -> values s os1 = values s os2) ->
    lookup leqb w cnames = Some c ->
    forall x, command_line (w :: ws1) = Some (Ok x) <-> command_line (w :: ws2) = Some (Ok x).
  Proof.
    assert (K : forall c w ws1 ws2 os1 os2, spelled ws1 (flat_map written os1) -> spelled ws2 (flat_map written os2) ->
      Forall (proper (tab c)) os1 -> Forall (proper (tab c)) os2 -> (forall s, In s (tab c) -> values s os1 = values s os2) ->
      lookup leqb w cnames = Some c ->
      forall x, command_line (w :: ws1) = Some (Ok x) -> command_line (w :: ws2) = Some (Ok x)).
    { intros c w ws1 ws2 os1 os2 I1 I2 P1 P2 V L x. apply spelled_items in I1, I2. unfold OpModel.command_line. rewrite L, I1, I2.
      destruct (read_items (tab c) (flat_map written os1)) as [a| |] eqn:R; cbn [rbind]; try discriminate. intros [= <-].
      apply (read_items_iff _ _ _ _ (tab c) _ a (tab_distinct c) (items_gone _ _ I1)) in R. destruct R as (os & E & P & F).
      rewrite (written_once _ (tab_distinct c) _ _ P1 P E) in V.
      assert (R : read_items (tab c) (flat_map written os2) = Ok a).
      { apply read_items_iff; [apply tab_distinct|exact (items_gone _ _ I2)|]. exists os2. split; [reflexivity|]. split; [exact P2|].
        clear - F V. revert V. induction F as [|s y T a (A & B) F IH]; intros V; constructor; [rewrite <- (V s (or_introl eq_refl)); auto|apply IH; intros z Z; apply V; now right]. }
      now rewrite R. }
    intros c w ws1 ws2 os1 os2 I1 I2 P1 P2 V L x. split; [apply (K c w ws1 ws2 os1 os2); auto|apply (K c w ws2 ws1 os2 os1); auto]. intros s Is. now rewrite V.
  Qed.
  (* An option the command does not have, and a word after complete options, are refused. *)
  Theorem C171_unknown_partial : forall c w ws l n, lookup leqb w cnames = Some c -> spelled ws l -> In (ILong n) l -> ~ In n (map s_long (tab c)) ->
    forall x, command_line (w :: ws) <> Some (Ok x).
  Proof.
    intros c w ws l n L I H N x. apply spelled_items in I. unfold OpModel.command_line. rewrite L, I. destruct (read_items (tab c) l) as [a| |] eqn:R; cbn [rbind]; try discriminate. intros _.
    apply (read_items_iff _ _ _ _ (tab c) l a (tab_distinct c) (items_gone _ _ I)) in R. destruct R as (os & -> & P & _).
    apply in_flat_map in H as (o & O & H). rewrite Forall_forall in P. destruct (P o O) as (A & B & _). destruct H as [H|H].
    - rewrite H in B. destruct B as [B|(k & _ & B)]; [|discriminate]. injection B as ->. apply N. now apply in_map.
    - destruct (oc_value o); [destruct H as [H|[]]; discriminate|destruct H].
  Qed.
  Theorem C171_word_partial : forall c w v ws os l2, lookup leqb w cnames = Some c -> Forall (proper (tab c)) os ->
    spelled ws (flat_map written os ++ IWord v :: l2) -> forall x, command_line (w :: ws) <> Some (Ok x).
  Proof.
    intros c w v ws os l2 L Po I x. apply spelled_items in I. unfold OpModel.command_line. rewrite L, I. destruct (read_items (tab c) _) as [a| |] eqn:R; cbn [rbind]; try discriminate. intros _.
    apply (read_items_iff _ _ _ _ (tab c) _ a (tab_distinct c) (items_gone _ _ I)) in R. destruct R as (os' & E & P & _). assert (D := tab_distinct c).
    clear - E P Po D. revert os' E P. induction Po as [|[s1 n1 v1] os (A1 & A2 & A3) Po IH]; intros [|[s2 n2 v2] os'] E P; cbn [flat_map app] in E; try discriminate;
      inversion P as [|? ? (B1 & B2 & B3) P']; subst; cbn in *; unfold written in E; cbn [oc_name oc_value app] in E; injection E as E0 E.
    - rewrite <- E0 in B2. exact (name_not_word _ _ B2).
    - subst n2. assert (s1 = s2) as <- by exact (named_same _ _ _ _ D A1 B1 A2 B2).
      destruct v1 as [w1|], v2 as [w2|]; cbn [app] in E.
      + injection E as -> E. exact (IH _ E P').
      + assert (X : s_mult s1 = Switch) by now apply B3. apply A3 in X. discriminate.
      + assert (X : s_mult s1 = Switch) by now apply A3. apply B3 in X. discriminate.
      + exact (IH _ E P').
  Qed.
  (* The one-letter names are these and no others. *)
  Theorem C171_letters : forall c a k n, (exists s, In s (tab c) /\ s_short s = Some k /\ s_long s = n) <->
    exists p, In p (letters (command_of c a)) /\ by_letter k p /\ n = txt (snd p).
  Proof.
    intros c a k n. split.
    - intros (s & I & E & <-). unfold by_letter.
      assert (K : forallb (fun s => match s_short s with Some d => existsb (fun p => leqb (txt (fst p)) [d] && leqb (s_long s) (txt (snd p))) (letters (command_of c a)) | None => true end) (tab c) = true)
        by (destruct c; vm_compute; reflexivity).
      rewrite forallb_forall in K. specialize (K s I). rewrite E in K. apply existsb_exists in K as (p & P & K). apply andb_true_iff in K as (K1 & K2).
      exists p. split; [exact P|]. split; now apply leqb_ok.
    - intros (p & I & B & ->). unfold by_letter in B.
      assert (K : existsb (fun s => match s_short s with Some c => leqb [c] (txt (fst p)) | None => false end && leqb (s_long s) (txt (snd p))) (tab c) = true).
      { clear - I. destruct c; cbn [letters command_of] in I; revert I; (repeat (intros [<-|I]; [vm_compute; reflexivity|revert I])); intros []. }
      apply existsb_exists in K as (s & S1 & S2). apply andb_true_iff in S2 as (S2 & S3). exists s. split; [exact S1|]. split; [|now apply leqb_ok].
      destruct (s_short s) as [d|]; [|discriminate]. apply leqb_ok in S2. rewrite B in S2. congruence.
  Qed.

  (* Without a command, or with a word that is not the name of one, the line is refused. *)
  Theorem C171_no_command : forall ws, (forall w, hd_error ws = Some w -> hd_error w <> Some 45 /\ forall cmd : command (list (text * list val)), w <> txt (called cmd)) ->
    command_line ws = Some (Err tt).
  Proof.
    intros [|w ws] H; [reflexivity|]. destruct (H w eq_refl) as (D & K). unfold OpModel.command_line.
    destruct (lookup leqb w cnames) as [c|] eqn:L.
    - destruct (K (command_of c [])). apply (cnames_one w c L).
    - destruct w as [|x w]; [reflexivity|]. destruct (N.eq_dec x 45) as [->|X]; [destruct (D eq_refl)|].
      destruct x as [|x]; [reflexivity|]. repeat (destruct x as [x|x|]; try reflexivity). now destruct X.
  Qed.

  (* C172, full statement: an option with a value that cannot be read is refused; it never
     crashes the program.  False: every value of --mappings crashes it, wherever it stands
     in a line proxy would otherwise accept ... *)
  Theorem C172_mappings_refuted : forall os1 os2 n v a,
    let o := Occ (Spec (txt "mappings") None (Many TMapping)) n (Some v) in
    proper (tab NProxy) o -> says reads (tab NProxy) (os1 ++ os2) a ->
    read_items (tab NProxy) (flat_map written (os1 ++ o :: os2)) = Panic.
  Proof.
    intros os1 os2 n v a o P (P12 & F). set (os := os1 ++ o :: os2). set (ms := Spec (txt "mappings") None (Many TMapping)) in *.
    assert (D := tab_distinct NProxy). assert (Pos : Forall (proper (tab NProxy)) os).
    { unfold os. apply Forall_app in P12 as (A & B). apply Forall_app. split; [exact A|]. now constructor. }
    set (t1 := firstn 20 proxy_tab).
    assert (ET : tab NProxy = t1 ++ ms :: shared_tab) by reflexivity.
    assert (Ft : exists a1, Forall2 (fun s x => fst x = s_long s /\ means reads (s_mult s) (values s os) (snd x)) t1 a1).
    { rewrite ET in F. apply Forall2_app_inv_l in F as (a1 & a2 & F1 & _ & _). exists a1.
      assert (N1 : forall s, In s t1 -> s_long s <> s_long ms).
      { intros s I E. assert (X : forallb (fun s => negb (leqb (s_long s) (s_long ms))) t1 = true) by (vm_compute; reflexivity).
        rewrite forallb_forall in X. apply X in I. rewrite E, leqb_refl in I. discriminate. }
      clear - F1 N1. induction F1 as [|s x t1 a1 (A & B) F1 IH]; constructor; [|apply IH; intros s' S'; apply N1; now right].
      split; [exact A|]. assert (V : values s os = values s (os1 ++ os2)); [|now rewrite V].
      unfold values, os. rewrite !flat_map_app. cbn [flat_map oc_spec o]. destruct (leqb (s_long s) (s_long ms)) eqn:E; [|reflexivity].
      apply leqb_ok in E. destruct (N1 s (or_introl eq_refl) E). }
    destruct Ft as (a1 & Ft).
    assert (Sub : incl t1 (tab NProxy)) by (rewrite ET; intros s I; apply in_app_iff; now left).
    assert (ND : NoDup (map s_long t1)). { destruct D as (D & _). rewrite ET, map_app in D. clear - D. induction (map s_long t1) as [|x l IH]; [constructor|].
      cbn [app] in D. apply NoDup_cons_iff in D as (A & B). constructor; [intros X; apply A, in_app_iff; now left|auto]. }
    unfold OpModel.read_items. rewrite ET.
    assert (RA : forall t2 l, OpModel.read_fields parse_ip parse_sa local4 local6 (t1 ++ t2) l =
      do x <- OpModel.read_fields parse_ip parse_sa local4 local6 t1 l ; do y <- OpModel.read_fields parse_ip parse_sa local4 local6 t2 (snd x) ; Ok (fst x ++ fst y, snd y)).
    { clear. induction t1 as [|s t IH]; intros t2 l; cbn [app OpModel.read_fields]; [cbn [rbind fst snd app]; destruct (OpModel.read_fields _ _ _ _ t2 l) as [[? ?]| |]; reflexivity|].
      destruct (OpModel.read_field _ _ _ _ s l) as [x| |]; cbn [rbind]; [|reflexivity|reflexivity]. rewrite IH.
      destruct (OpModel.read_fields _ _ _ _ t (snd x)) as [y| |]; cbn [rbind fst snd]; [|reflexivity|reflexivity].
      destruct (OpModel.read_fields _ _ _ _ t2 (snd y)) as [z| |]; reflexivity. }
    rewrite RA.
    assert (Im : In ms (tab NProxy)) by (rewrite ET; apply in_app_iff; right; now left).
    destruct (fields_others parse_ip parse_sa local4 local6 (tab NProxy) ms D t1 os (flat_map written os) a1 Sub) as (os' & l' & R & T' & V2).
    { intros s I E. assert (X : forallb (fun s => negb (leqb (s_long s) (s_long ms))) t1 = true) by (vm_compute; reflexivity).
      rewrite forallb_forall in X. apply X in I. rewrite E, leqb_refl in I. discriminate. }
    { exact ND. }
    { exact (tile_flat _ _ Pos). }
    { exact Ft. }
    rewrite R. cbn [rbind fst snd].
    assert (V' : exists w r, values ms os' = Some w :: r).
    { assert (VO : values ms os = values ms os1 ++ Some v :: values ms os2).
      { unfold os, values. rewrite flat_map_app. cbn [flat_map oc_spec o]. rewrite leqb_refl. reflexivity. }
      rewrite V2, VO. destruct (values ms os1) as [|x r] eqn:E; [cbn [app]; eauto|]. cbn [app]. destruct x as [w|]; [eauto|]. exfalso.
      assert (X : In None (values ms os1)) by (rewrite E; now left). unfold values in X.
        apply in_flat_map in X as (y & Y1 & Y2). destruct (leqb (s_long ms) (s_long (oc_spec y))) eqn:L; [|destruct Y2]. destruct Y2 as [Y2|[]].
        apply Forall_app in P12 as (Q & _). rewrite Forall_forall in Q. destruct (Q y Y1) as (B1 & _ & B3). apply leqb_ok in L.
        assert (Z : s_mult (oc_spec y) = Switch) by now apply B3.
        rewrite <- (long_two _ _ _ (proj1 D) Im B1 L) in Z. discriminate. }
    destruct V' as (w & r & V'). cbn [OpModel.read_fields]. unfold OpModel.read_field at 1. cbn [s_mult ms].
    assert (K := take_arg_tile (tab NProxy) ms os' l' D ltac:(rewrite ET; apply in_app_iff; right; now left) ltac:(discriminate) T').
    rewrite first_values in V'. destruct (first ms os') as [[x os'']|] eqn:E; [|discriminate]. injection V' as -> _.
    destruct K as (w' & l2 & Ew & K & _ & L). destruct l' as [|i l']; [cbn in K; discriminate|]. cbn [length OpModel.take_many]. rewrite K. reflexivity.
  Qed.
  (* ... and so do a list of addresses that is a dash, and a header of blanks. *)
  Theorem C172_values_refuted :
    command_line [txt "file-server"; txt "--listen"; txt "-"] = Some Panic /\
    command_line [txt "reverse-proxy"; txt "-f"; txt "-"; txt "-t"; txt ":80"] = Some Panic /\
    command_line [txt "file-server"; txt "-H"; txt " "] = Some Panic /\
    command_line [txt "file-server"; txt "-c=5124095576030432h"] = Some Panic /\
    forall w, hd_error w <> Some 45 -> command_line [txt "proxy"; txt "--mappings"; w] = Some Panic.
  Proof.
    split; [vm_compute; reflexivity|]. split; [vm_compute; reflexivity|]. split; [vm_compute; reflexivity|]. split; [vm_compute; reflexivity|].
    intros w H. assert (I : items [txt "--mappings"; w] = Some [ILong (txt "mappings"); IWord w]).
    { cbn [items]. rewrite (split_plain w H). reflexivity. }
    unfold OpModel.command_line. rewrite I. vm_compute. reflexivity.
  Qed.
  (* Proved: nothing else does.  A line crashes the program only by a value of --mappings, by a
     list of addresses with a dash in it, by a header of blanks, or by a duration too large
     for 64 bits; so run, stop, reload, check and version never crash here. *)
  Theorem C172_no_crash_partial : forall w ws, command_line (w :: ws) = Some Panic ->
    exists c s v, lookup leqb w cnames = Some c /\ In s (tab c) /\ (exists l, spelled ws l /\ In (IWord v) l) /\
      (type_of (s_mult s) = Some TMapping \/
       type_of (s_mult s) = Some TAddrs /\ In 45 v \/
       type_of (s_mult s) = Some THeader /\ v <> [] /\ split_by_whitespace v = [] \/
       type_of (s_mult s) = Some TDur /\ exists u m n, written_unit v = Some (u, m) /\ parse_uint u64_max (trim_end_str u v) = Some n /\ u64_max < n * m).
  Proof.
    intros w ws. unfold OpModel.command_line. destruct (lookup leqb w cnames) as [c|] eqn:L; [|repeat match goal with |- context [match ?x with _ => _ end] => destruct x end; discriminate]. destruct (items ws) as [l|] eqn:I; [|discriminate].
    destruct (read_items (tab c) l) as [a| |] eqn:R; cbn [rbind]; try discriminate. intros _.
    destruct (read_items_panic _ _ _ _ _ _ R) as (s & t & v & Is & Et & Iv & Pv). exists c, s, v. split; [reflexivity|]. split; [exact Is|]. split; [exists l; split; [now apply spelled_items|exact Iv]|].
    rewrite Et. destruct t; cbn [of_text] in Pv; try discriminate.
    - destruct (parse_uint _ v); discriminate.
    - assert (N := one_panic parse_sa local4 local6 v). destruct (parse_one _ _ _ v); cbn [rbind] in Pv; congruence.
    - right. left. split; [reflexivity|]. assert (N := list_no_dash_panic parse_sa local4 local6 v). destruct (parse_list _ _ _ v); cbn [rbind] in Pv; try discriminate.
      destruct (no_char 45 v) eqn:E; [destruct (N eq_refl); reflexivity|]. clear - E. unfold no_char in E. induction v as [|x v IH]; [discriminate|]. cbn [forallb] in E.
      destruct (x =? 45) eqn:X; [left; now apply N.eqb_eq|]. right. apply IH. exact E.
    - assert (N := parse_flag_panic v). destruct (parse_flag v); cbn [rbind] in Pv; congruence.
    - destruct (parse_ip v); discriminate.
    - destruct (parse_sa v); discriminate.
    - now left.
    - right. right. left. split; [reflexivity|]. apply parse_header_panic. destruct (parse_header v); cbn [rbind] in Pv; congruence.
    - right. right. right. split; [reflexivity|]. apply parse_dur_panic. destruct (parse_dur v); cbn [rbind] in Pv; congruence.
    - destruct (parse_filter v); discriminate.
  Qed.
  Theorem C172_plain_partial : forall name ws, In name ["run"; "stop"; "reload"; "check"; "version"]%string -> command_line (txt name :: ws) <> Some Panic.
  Proof.
    intros name ws I H. destruct (C172_no_crash_partial _ _ H) as (c & s & v & L & Is & _ & K).
    assert (X : forallb (fun s => match type_of (s_mult s) with Some TMapping | Some TAddrs | Some THeader | Some TDur => false | _ => true end) (tab c) = true).
    { revert L. repeat destruct I as [<-|I]; try (intros L; vm_compute in L; injection L as <-; vm_compute; reflexivity). destruct I. }
    rewrite forallb_forall in X. apply X in Is. destruct K as [K|[(K & _)|[(K & _)|(K & _)]]]; rewrite K in Is; discriminate.
  Qed.
End C171.

(* reverse-proxy with its options in two orders, by letters and by names *)
Example C171_demo :
  let sa x := if leqb x (txt "10.0.0.1:80") then Some (SAddr (V4 0x0a000001) 80) else if leqb x (txt "10.0.0.2:81") then Some (SAddr (V4 0x0a000002) 81) else None in
  let line := command_line (fun _ => None) sa None None in
  let r := Some (Ok (CReverse (RevArgs [SAddr (V4 0x0a000001) 80] (SAddr (V4 0x0a000002) 81) [] None true false),
                     Shared (SAddr (V4 0x7f000001) 8837) false false false false true (Some FOff) (txt "p"))) in
  line [txt "reverse-proxy"; txt "-f"; txt "10.0.0.1:80"; txt "--to=10.0.0.2:81"; txt "--tls"; txt "-v"; txt "--pidfile"; txt "p"; txt "--default-level"; txt "off"] = r /\
  line [txt "reverse-proxy"; txt "--default-level=OFF"; txt "--pidfile"; txt "p"; txt "--verbose"; txt "--tls"; txt "-t"; txt "10.0.0.2:81"; txt "--from"; txt "10.0.0.1:80"] = r /\
  line [txt "reverse-proxy"; txt "-f"; txt "10.0.0.1:80"] = Some (Err tt) /\
  line [txt "reverse-proxy"; txt "-t"; txt "10.0.0.1:80"; txt "-t"; txt "10.0.0.2:81"] = Some (Err tt) /\
  line [txt "reverse-proxy"; txt "-t"; txt "10.0.0.1:80"; txt "--tsl"] = Some (Err tt) /\
  line [txt "reverse-proxy"; txt "-t"; txt "10.0.0.1:80"; txt "now"] = Some (Err tt) /\
  line [txt "reverse-proxy"; txt "--from"; txt "-t"; txt "10.0.0.1:80"; txt "10.0.0.2:81"] = Some (Err tt) /\
  line [txt "run"; txt "-c"; txt "a.toml"] = Some (Ok (CRun (txt "a.toml"), Shared (SAddr (V4 0x7f000001) 8837) false false false false false None (txt "wmproxy.pid"))).
Proof. vm_compute. repeat split. Qed.
Example C172_demo : let o := Occ (Spec (txt "mappings") None (Many TMapping)) (ILong (txt "mappings")) (Some (txt "x")) in
  let ip (_ : text) : option ipaddr := None in let sa (_ : text) : option saddr := None in
  proper (tab NProxy) o /\ exists a, says (reads ip sa None None) (tab NProxy) [Occ (Spec (txt "tc") None Switch) (ILong (txt "tc")) None] a.
Proof.
  intros o ip sa. split.
  - split; [unfold tab, own_tab, proxy_tab; cbn [app]; do 20 right; left; reflexivity|]. split; [left; reflexivity|]. split; discriminate.
  - set (os := [Occ (Spec (txt "tc") None Switch) (ILong (txt "tc")) None]).
    assert (E : exists a, read_items ip sa None None (tab NProxy) (flat_map written os) = Ok a) by (eexists; vm_compute; reflexivity).
    destruct E as (a & E). exists a. apply read_items_iff in E; [|apply tab_distinct|].
    + destruct E as (os' & E & F). assert (os = os') as ->; [|exact F]. apply (written_once _ (tab_distinct NProxy)); [|exact (proj1 F)|exact E].
      constructor; [|constructor]. split; [unfold tab, own_tab, proxy_tab; cbn [app]; do 15 right; left; reflexivity|]. split; [left; reflexivity|]. cbn. tauto.
    + intros [X|[]]. discriminate X.
Qed.
Example C171_number_demo : of_text (fun _ => None) (fun _ => None) None None TNum (txt "+42") = Ok (VNum 42) /\
  of_text (fun _ => None) (fun _ => None) None None TNum (txt "4294967296") = Err tt.
Proof. split; vm_compute; reflexivity. Qed.
Print Assumptions C171_settings_partial.
Print Assumptions C171_accepted_partial.
Print Assumptions C171_order_partial.
Print Assumptions C171_unknown_partial.
Print Assumptions C171_word_partial.
Print Assumptions C171_letters.
Print Assumptions C171_no_command.
Print Assumptions C171_level.
Print Assumptions C171_number.
Print Assumptions C171_text.
Print Assumptions C172_mappings_refuted.
Print Assumptions C172_values_refuted.
Print Assumptions C172_no_crash_partial.
Print Assumptions C172_plain_partial.
