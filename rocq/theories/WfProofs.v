From Verif Require Import Base Text ProtModel ProtSpec ProtProofs WfSpec.
Open Scope N_scope.

Lemma big2 n : n < 2 ^ 16 -> big 2 n = be16 n.
Proof.
  intros H. unfold big, be16. change (256 ^ N.of_nat 1) with 256. change (256 ^ N.of_nat 0) with 1. rewrite N.div_1_r. reflexivity.
Qed.
Lemma big3 n : big 3 n = be24 n.
Proof.
  unfold big, be24. change (256 ^ N.of_nat 2) with 65536. change (256 ^ N.of_nat 1) with 256. change (256 ^ N.of_nat 0) with 1. rewrite N.div_1_r. reflexivity.
Qed.
Lemma big4 n : big 4 n = be32 n.
Proof.
  unfold big, be32. change (256 ^ N.of_nat 3) with 16777216. change (256 ^ N.of_nat 2) with 65536. change (256 ^ N.of_nat 1) with 256. change (256 ^ N.of_nat 0) with 1. rewrite N.div_1_r. reflexivity.
Qed.

(* ---- sending ---- *)
Lemma rule_wire_ok r : rule_fits r -> hrule_encode r = (rule_wire r, None).
Proof.
  intros H. rewrite hrule_encode_ok by exact H. unfold rule_bytes, rule_wire, counted. destruct (hr_oper r); reflexivity.
Qed.
Lemma rules_wire_ok rs : Forall rule_fits rs -> hrules_encode rs = (flat_map rule_wire rs, None).
Proof.
  induction 1 as [|r rs Hr _ IH]; [reflexivity|]. cbn [hrules_encode flat_map]. rewrite rule_wire_ok, IH by exact Hr. reflexivity.
Qed.
Lemma mapping_wire_ok m : mapping_fits m -> mapping_encode1 m = (mapping_wire m, None).
Proof.
  intros ([_ H1] & [_ H2] & [_ H3] & H4 & H5). unfold mapping_encode1, mapping_wire, counted.
  rewrite !wss_ok, rules_wire_ok, big2 by assumption. change (2 ^ 16) with 65536 in H4. rewrite (N.mod_small _ 65536) by exact H4. reflexivity.
Qed.
Lemma mappings_wire_ok ms : Forall mapping_fits ms -> mappings_encode ms = (flat_map mapping_wire ms, None).
Proof.
  induction 1 as [|m ms Hm _ IH]; [reflexivity|]. cbn [mappings_encode flat_map]. rewrite mapping_wire_ok, IH by exact Hm. reflexivity.
Qed.
Lemma mappings_len ms : Forall mapping_fits ms -> nlen (flat_map mapping_wire ms) = nlen (mappings_bytes ms).
Proof. intros H. pose proof (mappings_wire_ok ms H) as A. rewrite (mappings_encode_ok ms H) in A. injection A as <-. reflexivity. Qed.
Lemma sent_ok f : fits f -> encode f = (frame_wire f, None).
Proof.
  intros H. unfold frame_wire. rewrite !big3, big4. change (2 ^ 32) with 4294967296.
  destruct f as [s d|s r|s d|s ms|u p]; cbn [encode fits content_wire frame_sock code] in *.
  - destruct H as [W H]. unfold create_encode, counted.
    rewrite nlen_cons. set (x := match d with Some s0 => s0 | None => [] end). cbv zeta.
    assert (L : nlen x <= 255) by (subst x; destruct d as [d|]; [apply H|vm_compute; discriminate]). rewrite (N.mod_small (nlen x) 4294967296) by lia. rewrite (N.mod_small (1 + nlen x) 4294967296) by lia.
    unfold header_encode, be8. cbn [h_len h_kind h_flag h_sock kind_encode].
    rewrite (N.mod_small (nlen x) 256) by lia. rewrite <- !app_assoc. reflexivity.
  - destruct H as [W [_ L]]. unfold close_encode, counted, wseq. rewrite wss_ok by exact L. cbn [fst snd]. rewrite nlen_cons, (N.mod_small (nlen r + 1) 4294967296) by lia.
    unfold header_encode. cbn [h_len h_kind h_flag h_sock kind_encode]. rewrite <- !app_assoc. rewrite (N.add_comm (nlen r) 1). reflexivity.
  - destruct H as [W [_ L]]. change (2 ^ 24) with 16777216 in L. unfold data_encode. rewrite (N.mod_small (nlen d) 4294967296) by lia.
    unfold header_encode. cbn [h_len h_kind h_flag h_sock kind_encode]. rewrite <- !app_assoc. reflexivity.
  - destruct H as (W & N1 & F & L). unfold mapping_encode. rewrite mappings_wire_ok by exact F. unfold wseq. cbn [fst snd].
    rewrite big2 by exact N1. change (2 ^ 16) with 65536 in N1. rewrite (N.mod_small (nlen ms) 65536) by exact N1.
    rewrite !nlen_app, mappings_len by exact F. change (nlen (be16 (nlen ms))) with 2. rewrite mappings_bytes_size. unfold mappings_size in L. change (2 ^ 24) with 16777216 in L.
    match goal with |- context[Header (?x mod 4294967296) KMapping] => rewrite (N.mod_small x 4294967296) by lia end.
    unfold header_encode. cbn [h_len h_kind h_flag h_sock kind_encode]. rewrite <- !app_assoc. reflexivity.
  - destruct H as ([_ L1] & [_ L2]). unfold token_encode, counted, wseq. rewrite !wss_ok by assumption. cbn [fst snd].
    rewrite nlen_app, !nlen_cons, (N.mod_small (nlen u + 1 + nlen p + 1) 4294967296) by lia. unfold header_encode. cbn [h_len h_kind h_flag h_sock kind_encode]. rewrite <- !app_assoc.
    replace (nlen u + 1 + nlen p + 1) with (1 + nlen u + (1 + nlen p)) by lia. reflexivity.
Qed.

(* ---- receiving ---- *)
Lemma bok_app a b : bytes_ok (a ++ b) = true -> bytes_ok a = true /\ bytes_ok b = true.
Proof. rewrite bytes_ok_app. apply andb_true_iff. Qed.
Lemma bok_cons a b : bytes_ok (a :: b) = true -> a < 256 /\ bytes_ok b = true.
Proof. unfold bytes_ok. cbn [forallb]. rewrite andb_true_iff. unfold byte_ok. intros [H K]. split; [lia|exact K]. Qed.

Lemma text_back w s r : text_for w s -> read_short_string (w ++ r) = Ok (s, r).
Proof.
  intros (t & -> & Ht & ->). unfold read_short_string, counted. cbn [app]. rewrite nlen_cons. replace (1 + nlen (t ++ r) <? 1) with false by lia. cbn [get_u8 rbind].
  rewrite nlen_app. replace (nlen t + nlen r <? nlen t) with false by lia. destruct (N.eqb_spec (nlen t) 0) as [E|E].
  - destruct t; [reflexivity|]. rewrite nlen_cons in E. lia.
  - unfold nlen. rewrite Nnat.Nat2N.id, firstn_app_exact, skipn_app_exact. reflexivity.
Qed.
Lemma text_read b s r : bytes_ok b = true -> read_short_string b = Ok (s, r) -> exists w, b = w ++ r /\ text_for w s.
Proof.
  intros B. unfold read_short_string. destruct b as [|n b]; [discriminate|].
  destruct (bok_cons _ _ B) as [Hn _]. rewrite nlen_cons. replace (1 + nlen b <? 1) with false by lia. cbn [get_u8 rbind].
  destruct (nlen b <? n) eqn:L; [discriminate|]. apply N.ltb_ge in L. destruct (N.eqb_spec n 0) as [->|Hz].
  - intros [= <- <-]. exists [0]. split; [reflexivity|]. exists []. repeat split. vm_compute. discriminate.
  - intros [= <- <-]. exists (n :: firstn (N.to_nat n) b). split; [cbn [app]; rewrite firstn_skipn; reflexivity|].
    exists (firstn (N.to_nat n) b). assert (X : nlen (firstn (N.to_nat n) b) = n) by (unfold nlen in *; rewrite firstn_length; lia).
    split; [unfold counted; rewrite X; reflexivity|]. split; [lia|reflexivity].
Qed.
Lemma num_back n r : n < 2 ^ 16 -> get_u16 (big 2 n ++ r) = Ok (n, r).
Proof. intros H. rewrite big2 by exact H. apply get_u16_be16. exact H. Qed.
Lemma num_read b n r : bytes_ok b = true -> get_u16 b = Ok (n, r) -> b = big 2 n ++ r /\ n < 2 ^ 16.
Proof.
  intros B. destruct b as [|x [|y b]]; cbn [get_u16]; try discriminate.
  destruct (bok_cons _ _ B) as [Hx B1]. destruct (bok_cons _ _ B1) as [Hy _]. change (2 ^ 16) with 65536.
  intros [= <- <-]. split; [|lia]. rewrite big2 by (change (2 ^ 16) with 65536; lia). unfold be16. cbn [app]. f_equal; [lia|]. f_equal. lia.
Qed.
Lemma must2 b k : must_have 2 b = Ok k -> k = (tt, b).
Proof. unfold must_have. destruct (nlen b <? 2); [discriminate|]. intros [= <-]. reflexivity. Qed.
Lemma must2_back b : 2 <= nlen b -> must_have 2 b = Ok (tt, b).
Proof. intros H. unfold must_have. replace (nlen b <? 2) with false by lia. reflexivity. Qed.
Lemma change_read c o : hoper_from_u8 c = o <-> change_for c o.
Proof.
  unfold hoper_from_u8. destruct (N.eqb_spec c 1), (N.eqb_spec c 2), (N.eqb_spec c 3); destruct o; cbn [change_for change_code]; split; intros H; try discriminate H; try lia; try reflexivity; try (destruct H as (? & ? & ?); lia).
Qed.
Lemma rb {E A B} (r : res E A) (k : A -> res E B) v : rbind r k = Ok v -> exists a, r = Ok a /\ k a = Ok v.
Proof. destruct r as [a|e|]; cbn [rbind]; try discriminate. eauto. Qed.

Lemma rule_back w x r : rule_for w x -> hrule_parse (w ++ r) = Ok (x, r).
Proof.
  intros (p & c & wk & wv & -> & P & C & K & V). unfold hrule_parse. cbn [app]. rewrite <- app_assoc.
  rewrite must2_back by (rewrite !nlen_cons; lia). cbn [rbind get_u8]. rewrite (text_back _ _ _ K). cbn [rbind]. rewrite (text_back _ _ _ V). cbn [rbind].
  apply change_read in C. rewrite C. f_equal. f_equal. destruct x as [o q k v]. cbn [hr_proxy hr_oper hr_key hr_val] in *. f_equal.
  destruct (N.eqb_spec p 0) as [->|E]; cbn [negb]; destruct q; try reflexivity.
  - destruct P as [P _]. now destruct (P eq_refl).
  - destruct P as [_ P]. symmetry. now apply P.
Qed.
Lemma rule_read b x r : bytes_ok b = true -> hrule_parse b = Ok (x, r) -> exists w, b = w ++ r /\ rule_for w x.
Proof.
  intros B H. unfold hrule_parse in H. apply rb in H as ((u & b0) & M & H). apply must2 in M as [= -> ->].
  apply rb in H as ((p & b1) & G1 & H). destruct b as [|p' b]; [discriminate G1|]. cbn [get_u8] in G1. injection G1 as -> ->.
  apply rb in H as ((c & b2) & G2 & H). destruct b1 as [|c' b]; [discriminate G2|]. cbn [get_u8] in G2. injection G2 as -> ->.
  destruct (bok_cons _ _ B) as [_ B1]. destruct (bok_cons _ _ B1) as [_ B2].
  apply rb in H as ((k & b3) & K & H). apply text_read in K as (wk & -> & Tk); [|exact B2]. apply bok_app in B2 as [_ B3].
  apply rb in H as ((v & b4) & V & H). apply text_read in V as (wv & -> & Tv); [|exact B3]. injection H as <- <-.
  exists (p :: c :: wk ++ wv). split; [cbn [app]; rewrite app_assoc; reflexivity|]. exists p, c, wk, wv. split; [reflexivity|]. cbn [hr_proxy hr_oper hr_key hr_val].
  split; [destruct (N.eqb_spec p 0); cbn; split; congruence|]. split; [apply change_read; reflexivity|]. auto.
Qed.
Lemma rules_back w xs r : many rule_for w xs -> hrules_parse (length xs) (w ++ r) = Ok (xs, r).
Proof.
  induction 1 as [|w x ws xs O M IH]; [reflexivity|]. cbn [length hrules_parse]. rewrite <- app_assoc, (rule_back _ _ _ O). cbn [rbind]. rewrite IH. reflexivity.
Qed.
Lemma rules_read n : forall b xs r, bytes_ok b = true -> hrules_parse n b = Ok (xs, r) -> length xs = n /\ exists w, b = w ++ r /\ many rule_for w xs.
Proof.
  induction n as [|n IH]; intros b xs r B H; cbn [hrules_parse] in H.
  - injection H as <- <-. split; [reflexivity|]. exists []. split; [reflexivity|constructor].
  - apply rb in H as ((x & b1) & G & H). apply rule_read in G as (w & -> & R); [|exact B]. apply bok_app in B as [_ B1].
    apply rb in H as ((ys & b2) & G & H). apply IH in G as (L & ws & -> & Ms); [|exact B1]. injection H as <- <-.
    split; [cbn [length]; now rewrite L|]. exists (w ++ ws). split; [now rewrite app_assoc|]. constructor; assumption.
Qed.
Lemma mapping_back w m r : mapping_for w m -> mapping_parse1 (w ++ r) = Ok (m, r).
Proof.
  intros (wn & wm & wd & wh & -> & L & T1 & T2 & T3 & Rs & Lo). unfold mapping_parse1. rewrite <- !app_assoc.
  rewrite (text_back _ _ _ T1). cbn [rbind]. rewrite (text_back _ _ _ T2). cbn [rbind]. rewrite (text_back _ _ _ T3). cbn [rbind].
  rewrite must2_back by (rewrite nlen_app; change (nlen (big 2 (nlen (m_headers m)))) with 2; lia). cbn [rbind]. rewrite num_back by exact L. cbn [rbind].
  unfold nlen. rewrite Nnat.Nat2N.id, (rules_back _ _ _ Rs). cbn [rbind]. f_equal. f_equal. destruct m. cbn in *. now rewrite Lo.
Qed.
Lemma mapping_read b m r : bytes_ok b = true -> mapping_parse1 b = Ok (m, r) -> exists w, b = w ++ r /\ mapping_for w m.
Proof.
  intros B H. unfold mapping_parse1 in H.
  apply rb in H as ((a1 & b1) & G & H). apply text_read in G as (wn & -> & T1); [|exact B]. apply bok_app in B as [_ B].
  apply rb in H as ((a2 & b2) & G & H). apply text_read in G as (wm & -> & T2); [|exact B]. apply bok_app in B as [_ B].
  apply rb in H as ((a3 & b3) & G & H). apply text_read in G as (wd & -> & T3); [|exact B]. apply bok_app in B as [_ B].
  apply rb in H as ((u & b4) & G & H). apply must2 in G as [= -> ->].
  apply rb in H as ((n & b5) & G & H). apply num_read in G as (-> & L); [|exact B]. apply bok_app in B as [_ B].
  apply rb in H as ((hs & b6) & G & H). apply rules_read in G as (E & wh & -> & Rs); [|exact B]. injection H as <- <-.
  assert (X : n = nlen hs) by (unfold nlen; lia). subst n.
  exists (wn ++ wm ++ wd ++ big 2 (nlen hs) ++ wh). split; [now rewrite <- !app_assoc|]. exists wn, wm, wd, wh. cbn [m_headers m_name m_mode m_domain m_local]. auto 10.
Qed.
Lemma mappings_back w xs r : many mapping_for w xs -> mappings_parse (length xs) (w ++ r) = Ok (xs, r).
Proof.
  induction 1 as [|w x ws xs O M IH]; [reflexivity|]. cbn [length mappings_parse]. rewrite <- app_assoc, (mapping_back _ _ _ O). cbn [rbind]. rewrite IH. reflexivity.
Qed.
Lemma mappings_read n : forall b xs r, bytes_ok b = true -> mappings_parse n b = Ok (xs, r) -> length xs = n /\ exists w, b = w ++ r /\ many mapping_for w xs.
Proof.
  induction n as [|n IH]; intros b xs r B H; cbn [mappings_parse] in H.
  - injection H as <- <-. split; [reflexivity|]. exists []. split; [reflexivity|constructor].
  - apply rb in H as ((x & b1) & G & H). apply mapping_read in G as (w & -> & R); [|exact B]. apply bok_app in B as [_ B1].
    apply rb in H as ((ys & b2) & G & H). apply IH in G as (L & ws & -> & Ms); [|exact B1]. injection H as <- <-.
    split; [cbn [length]; now rewrite L|]. exists (w ++ ws). split; [now rewrite app_assoc|]. constructor; assumption.
Qed.

(* the header *)
Lemma header_read b len copy h body : bytes_ok b = true -> read_u24 b = Ok (len, copy) -> parse_by_len len copy = Ok (h, body) ->
  exists k flags num sid, b = big 3 len ++ [k; flags] ++ big 3 num ++ big 4 sid ++ body /\ len < 2 ^ 24 /\ num < 2 ^ 24 /\ sid < 2 ^ 32 /\
  h_len h = len /\ h_kind h = kind_new k /\ h_sock h = sid * 2 ^ 32 + num /\ bytes_ok body = true.
Proof.
  intros B R P. destruct b as [|x0 [|x1 [|x2 b]]]; try discriminate R. cbn [read_u24] in R. injection R as <- <-.
  unfold parse_by_len in P. destruct (nlen b <? frame_header_bytes - 3); [discriminate|].
  destruct b as [|k [|fl [|y0 [|y1 [|y2 [|z0 [|z1 [|z2 [|z3 b]]]]]]]]]; try discriminate P. cbn [get_u8 rbind read_u24 get_u32] in P. injection P as <- <-.
  repeat match goal with X : bytes_ok (_ :: _) = true |- _ => apply bok_cons in X as [? X] end.
  exists k, fl, (y0 * 65536 + y1 * 256 + y2), (z0 * 16777216 + z1 * 65536 + z2 * 256 + z3). cbn [h_len h_kind h_sock].
  change (2 ^ 24) with 16777216. change (2 ^ 32) with 4294967296. split; [|repeat split; first [assumption|lia]].
  rewrite !big3, big4. unfold be24, be32. cbn [app].
  repeat match goal with |- ?a :: _ = ?c :: _ => apply (f_equal2 (@cons N)); [first [reflexivity|lia]|] end. reflexivity.
Qed.
Lemma header_back len k fl num sid body : len < 2 ^ 24 -> num < 2 ^ 24 -> sid < 2 ^ 32 ->
  exists copy h, read_u24 (big 3 len ++ [k; fl] ++ big 3 num ++ big 4 sid ++ body) = Ok (len, copy) /\ parse_by_len len copy = Ok (h, body) /\
  h_len h = len /\ h_kind h = kind_new k /\ h_sock h = sid * 2 ^ 32 + num.
Proof.
  change (2 ^ 24) with 16777216. change (2 ^ 32) with 4294967296. intros H1 H2 H3. rewrite !big3, big4. unfold be24, be32. cbn [app read_u24].
  eexists. eexists. split; [f_equal; f_equal; lia|]. split.
  - unfold parse_by_len. match goal with |- context [nlen ?l <? ?n] => replace (nlen l <? n) with false end.
    2:{ symmetry. apply N.ltb_ge. unfold nlen, frame_header_bytes. cbn [length]. lia. }
    cbn [get_u8 rbind read_u24 get_u32]. reflexivity.
  - cbn [h_len h_kind h_sock]. unfold calc_sock_map. repeat split; lia.
Qed.

Lemma code_kind f k : kind_new k = kind_new (code f) -> k = code f.
Proof.
  unfold kind_new. destruct (N.eqb_spec k 0), (N.eqb_spec k 1), (N.eqb_spec k 2), (N.eqb_spec k 3), (N.eqb_spec k 4); destruct f; cbn; intros H; try discriminate H; assumption.
Qed.
Lemma lossy_none t : from_utf8_lossy t = [] -> t = [].
Proof.
  destruct t as [|a t]; [reflexivity|]. cbn [from_utf8_lossy]. intros H. exfalso. revert H.
  repeat match goal with |- context[if ?c then _ else _] => destruct c | |- context[match ?l with [] => _ | _ :: _ => _ end] => destruct l end; discriminate.
Qed.
Lemma content_read h b f k : bytes_ok b = true -> h_kind h = kind_new k -> h_len h <= nlen b -> frame_parse h b = Ok f ->
  k = code f /\ frame_sock f = (match f with FToken _ _ => 0 | _ => h_sock h end) /\ exists w more, b = w ++ more /\ content_for (h_len h) w f.
Proof.
  intros B K L H. unfold frame_parse in H. destruct (h_kind h) eqn:Hk; try discriminate H.
  - unfold data_parse in H. destruct (nlen b <? h_len h) eqn:E; [discriminate|]. injection H as <-. split; [apply code_kind; now rewrite <- K|]. split; [reflexivity|].
    exists (firstn (N.to_nat (h_len h)) b), (skipn (N.to_nat (h_len h)) b). split; [now rewrite firstn_skipn|]. cbn [content_for]. split; [reflexivity|].
    unfold nlen in *. rewrite firstn_length. lia.
  - unfold create_parse in H. apply rb in H as ((n & b1) & G & H). destruct b as [|n' b]; [discriminate G|]. cbn [get_u8] in G. injection G as -> ->.
    destruct (bok_cons _ _ B) as [Hn _]. destruct (nlen b1 <? n) eqn:E; [discriminate|]. apply N.ltb_ge in E. injection H as <-.
    split; [apply code_kind; now rewrite <- K|]. split; [reflexivity|]. destruct (N.ltb_spec 0 n) as [P|P].
    + exists (n :: firstn (N.to_nat n) b1), (skipn (N.to_nat n) b1). split; [cbn [app]; now rewrite firstn_skipn|]. cbn [content_for].
      split; [intros [= X _]; lia|]. exists (firstn (N.to_nat n) b1). assert (X : nlen (firstn (N.to_nat n) b1) = n) by (unfold nlen in *; rewrite firstn_length; lia).
      unfold counted. rewrite X. repeat split. lia.
    + assert (n = 0) by lia. subst n. exists [0], b1. split; reflexivity.
  - unfold close_parse in H. apply rb in H as ((r & b1) & G & H). injection H as <-. apply text_read in G as (w & -> & T); [|exact B].
    split; [apply code_kind; now rewrite <- K|]. split; [reflexivity|]. exists w, b1. split; [reflexivity|exact T].
  - unfold mapping_parse in H. apply rb in H as ((u & b0) & G & H). apply must2 in G as [= -> ->].
    apply rb in H as ((n & b1) & G & H). apply num_read in G as (-> & Ln); [|exact B]. apply bok_app in B as [_ B].
    apply rb in H as ((ms & b2) & G & H). apply mappings_read in G as (E & w & -> & M); [|exact B]. injection H as <-.
    assert (X : n = nlen ms) by (unfold nlen; lia). subst n.
    split; [apply code_kind; now rewrite <- K|]. split; [reflexivity|]. exists (big 2 (nlen ms) ++ w), b2. split; [now rewrite <- app_assoc|]. cbn [content_for]. split; [exact Ln|]. eauto.
  - unfold token_parse in H. apply rb in H as ((u & b1) & G & H). apply text_read in G as (wu & -> & Tu); [|exact B]. apply bok_app in B as [_ B].
    apply rb in H as ((p & b2) & G & H). apply text_read in G as (wp & -> & Tp); [|exact B]. injection H as <-.
    split; [apply code_kind; now rewrite <- K|]. split; [reflexivity|]. exists (wu ++ wp), b2. split; [now rewrite <- app_assoc|]. exists wu, wp. auto.
Qed.
Lemma content_back h w more f : h_kind h = kind_new (code f) -> content_for (h_len h) w f ->
  frame_sock f = (match f with FToken _ _ => 0 | _ => h_sock h end) -> frame_parse h (w ++ more) = Ok f.
Proof.
  intros K C S'. unfold frame_parse. rewrite K. destruct f as [s d|s r|s d|s ms|u p]; cbn [code] in *; cbn [content_for frame_sock] in *.
  - change (kind_new 1) with KCreate. cbn iota. unfold create_parse. destruct d as [d|].
    + destruct C as [N0 (t & -> & Lt & ->)]. unfold counted. cbn [app get_u8 rbind]. rewrite nlen_app. replace (nlen t + nlen more <? nlen t) with false by lia.
      destruct (N.ltb_spec 0 (nlen t)) as [P|P].
      * rewrite <- S'. unfold nlen. rewrite Nnat.Nat2N.id, firstn_app_exact. reflexivity.
      * destruct t; [exfalso; apply N0; reflexivity|]. rewrite nlen_cons in P. lia.
    + subst w. cbn [app get_u8 rbind]. replace (nlen more <? 0) with false by lia. cbn [N.ltb N.compare]. rewrite S'. reflexivity.
  - change (kind_new 2) with KClose. cbn iota. unfold close_parse. rewrite (text_back _ _ _ C). cbn [rbind]. now rewrite S'.
  - change (kind_new 0) with KData. cbn iota. destruct C as [-> C]. unfold data_parse. rewrite <- C, nlen_app. replace (nlen d + nlen more <? nlen d) with false by lia.
    unfold nlen. rewrite Nnat.Nat2N.id, firstn_app_exact. now rewrite S'.
  - change (kind_new 3) with KMapping. cbn iota. destruct C as (Ln & wm & -> & M). unfold mapping_parse. rewrite <- app_assoc.
    rewrite must2_back by (rewrite nlen_app; change (nlen (big 2 (nlen ms))) with 2; lia). cbn [rbind]. rewrite num_back by exact Ln. cbn [rbind].
    unfold nlen. rewrite Nnat.Nat2N.id, (mappings_back _ _ _ M). cbn [rbind]. now rewrite S'.
  - change (kind_new 4) with KToken. cbn iota. destruct C as (wu & wp & -> & Tu & Tp). unfold token_parse. rewrite <- app_assoc, (text_back _ _ _ Tu). cbn [rbind].
    rewrite (text_back _ _ _ Tp). reflexivity.
Qed.
Lemma big_len k v : nlen (big k v) = N.of_nat k.
Proof. induction k as [|k IH]; [reflexivity|]. cbn [big]. rewrite nlen_cons, IH. lia. Qed.

Lemma read_ok b f rest : bytes_ok b = true -> decode_frame b = DFrame f rest <-> starts_with b f rest.
Proof.
  intros B. unfold decode_frame, starts_with. split.
  - intros H. destruct (nlen b <? 8); [discriminate|]. destruct (read_u24 b) as [[len copy]|e|] eqn:R; try discriminate H.
    destruct (nlen b <? len + frame_header_bytes) eqn:L; [discriminate|]. apply N.ltb_ge in L. cbv zeta in H.
    destruct (parse_by_len len copy) as [[h body]|e|] eqn:P; try discriminate H. destruct (frame_parse h body) as [f'|e|] eqn:F; try discriminate H. injection H as -> <-.
    destruct (header_read _ _ _ _ _ B R P) as (k & fl & num & sid & -> & H1 & H2 & H3 & E1 & E2 & E3 & Bb).
    rewrite !nlen_app, !big_len, !nlen_cons, nlen_nil in L. unfold frame_header_bytes in *.
    destruct (content_read h body f k Bb E2 ltac:(rewrite E1; lia) F) as (-> & Es & w & more & -> & C).
    exists len, fl, num, sid, w, more. split; [reflexivity|]. split; [exact H1|]. split; [exact H2|]. split; [exact H3|]. rewrite E1 in C. split; [exact C|].
    rewrite E3 in Es. split; [exact Es|]. split; [lia|].
    replace (N.to_nat (len + 12)) with (12 + N.to_nat len)%nat by lia. reflexivity.
  - intros (len & fl & num & sid & w & more & -> & H1 & H2 & H3 & C & Es & L & ->).
    destruct (header_back len (code f) fl num sid (w ++ more) H1 H2 H3) as (copy & h & R & P & E1 & E2 & E3). rewrite R, P.
    rewrite (content_back h w more f E2) by (rewrite ?E1, ?E3; assumption).
    rewrite !(nlen_app (_ ++ _)) || idtac. unfold frame_header_bytes.
    match goal with |- context[nlen ?l <? 8] => assert (X : nlen l = 12 + nlen (w ++ more)) by (rewrite !nlen_app, !big_len, !nlen_cons, nlen_nil; lia); rewrite X end.
    replace (12 + nlen (w ++ more) <? 8) with false by lia. replace (12 + nlen (w ++ more) <? len + 12) with false by lia.
    replace (N.to_nat (len + 12)) with (12 + N.to_nat len)%nat by lia. reflexivity.
Qed.
