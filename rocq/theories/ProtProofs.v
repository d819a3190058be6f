From Verif Require Import Base Text ProtModel ProtSpec.
Open Scope N_scope.

Ltac unN := unfold nlen in *.

Lemma wire_sock_bounds s : wire_sock s -> s mod 4294967296 < 16777216 /\ s / 4294967296 < 4294967296.
Proof.
  intros (sid & id & Hsid & Hid & ->).
  change (2 ^ 32) with 4294967296 in *. change (2 ^ 24) with 16777216 in *. lia.
Qed.

Lemma header_encode_len h : length (header_encode h) = 12%nat.
Proof. reflexivity. Qed.

Lemma header_encode_nlen h : nlen (header_encode h) = 12.
Proof. reflexivity. Qed.

(* Reading back an encoded header. *)
Lemma header_roundtrip len k s rest :
  len < 2 ^ 24 -> wire_sock s -> k <> KUnregistered ->
  exists copy,
    read_u24 (header_encode (Header len k 0 s) ++ rest) = Ok (len, copy) /\
    parse_by_len len copy = Ok (Header len k 0 s, rest).
Proof.
  intros Hlen Hs Hk. change (2 ^ 24) with 16777216 in Hlen.
  apply wire_sock_bounds in Hs as [Hlo Hhi].
  eexists. split.
  - unfold header_encode; cbn [h_len h_kind h_flag h_sock].
    unfold be24 at 1. cbn [app read_u24]. f_equal. f_equal. lia.
  - unfold parse_by_len.
    cbn [app]. unfold be8, be24, be32. cbn [app].
    unfold frame_header_bytes.
    match goal with |- context [nlen ?l <? ?n] => replace (nlen l <? n) with false end.
    2:{ symmetry; apply N.ltb_ge. unfold nlen. cbn [length]. lia. }
    cbn [get_u8 rbind read_u24 get_u32].
    replace (kind_new (kind_encode k mod 256)) with k
      by (destruct k; vm_compute; congruence).
    f_equal. f_equal. f_equal. unfold calc_sock_map. lia.
Qed.

(* decode_frame on an encoded header followed by its payload. *)
Lemma decode_header len k s body rest f :
  len = nlen body -> len < 2 ^ 24 -> wire_sock s -> k <> KUnregistered ->
  frame_parse (Header len k 0 s) (body ++ rest) = Ok f ->
  decode_frame ((header_encode (Header len k 0 s) ++ body) ++ rest) = DFrame f rest.
Proof.
  intros Hl Hlen Hs Hk Hp.
  destruct (header_roundtrip len k s (body ++ rest) Hlen Hs Hk) as (copy & Hr & Hq).
  unfold decode_frame. rewrite <- app_assoc.
  rewrite Hr, Hq, Hp. unfold frame_header_bytes.
  rewrite !nlen_app, header_encode_nlen.
  replace (12 + (nlen body + nlen rest) <? 8) with false by lia.
  replace (12 + (nlen body + nlen rest) <? len + 12) with false by lia.
  f_equal. rewrite app_assoc.
  replace (N.to_nat (len + 12)) with (length (header_encode (Header len k 0 s) ++ body))%nat.
  - apply skipn_app_exact.
  - rewrite app_length, header_encode_len. unfold nlen in Hl. lia.
Qed.

(* Short strings. *)
Lemma wss_ok s : nlen s <= 255 -> write_short_string s = (nlen s :: s, None).
Proof.
  intros H. unfold write_short_string. replace (255 <? nlen s) with false by lia.
  unfold be8. cbn [app]. rewrite N.mod_small by lia. reflexivity.
Qed.

Lemma rss_ok s rest : short_string s -> read_short_string ((nlen s :: s) ++ rest) = Ok (s, rest).
Proof.
  intros [Hs Hl]. unfold read_short_string. cbn [app].
  rewrite nlen_cons. replace (1 + nlen (s ++ rest) <? 1) with false by lia.
  cbn [get_u8 rbind]. rewrite nlen_app.
  replace (nlen s + nlen rest <? nlen s) with false by lia.
  destruct (N.eqb_spec (nlen s) 0) as [E|E].
  - destruct s; [reflexivity|]. rewrite nlen_cons in E; lia.
  - unfold nlen. rewrite Nnat.Nat2N.id, firstn_app_exact, skipn_app_exact.
    rewrite lossy_string by exact Hs. reflexivity.
Qed.

Lemma rss_ok' s rest : short_string s -> read_short_string (nlen s :: s ++ rest) = Ok (s, rest).
Proof. exact (rss_ok s rest). Qed.

(* Header rules. *)
Definition rule_bytes (r : hrule) : bytes :=
  [if hr_proxy r then 1 else 0; hoper_to_u8 (hr_oper r)]
  ++ (nlen (hr_key r) :: hr_key r) ++ (nlen (hr_val r) :: hr_val r).
Definition rules_bytes (rs : list hrule) : bytes := flat_map rule_bytes rs.
Definition mapping_bytes (m : mapping) : bytes :=
  (nlen (m_name m) :: m_name m) ++ (nlen (m_mode m) :: m_mode m)
  ++ (nlen (m_domain m) :: m_domain m) ++ be16 (nlen (m_headers m)) ++ rules_bytes (m_headers m).
Definition mappings_bytes (ms : list mapping) : bytes := flat_map mapping_bytes ms.

Lemma hrule_encode_ok r : rule_fits r -> hrule_encode r = (rule_bytes r, None).
Proof.
  intros [[_ Hk] [_ Hv]]. unfold hrule_encode, rule_bytes.
  rewrite !wss_ok by assumption. unfold wseq; cbn [snd fst].
  f_equal. f_equal. destruct r as [o p k v]; cbn [hr_proxy hr_oper].
  destruct o, p; reflexivity.
Qed.

Lemma hrules_encode_ok rs : Forall rule_fits rs -> hrules_encode rs = (rules_bytes rs, None).
Proof.
  induction 1 as [|r rs Hr Hrs IH]; [reflexivity|].
  cbn [hrules_encode]. rewrite hrule_encode_ok, IH by assumption. reflexivity.
Qed.

Lemma mapping_encode1_ok m : mapping_fits m -> mapping_encode1 m = (mapping_bytes m, None).
Proof.
  intros ([_ H1] & [_ H2] & [_ H3] & H4 & H5).
  unfold mapping_encode1, mapping_bytes.
  rewrite !wss_ok, hrules_encode_ok by assumption.
  change (2 ^ 16) with 65536 in H4.
  rewrite N.mod_small by exact H4. reflexivity.
Qed.

Lemma mappings_encode_ok ms : Forall mapping_fits ms -> mappings_encode ms = (mappings_bytes ms, None).
Proof.
  induction 1 as [|m ms Hm Hms IH]; [reflexivity|].
  cbn [mappings_encode]. rewrite mapping_encode1_ok, IH by assumption. reflexivity.
Qed.

Lemma rule_bytes_size r : nlen (rule_bytes r) = rule_size r.
Proof. unfold rule_bytes, rule_size. rewrite !nlen_app, !nlen_cons, nlen_nil. lia. Qed.

Lemma rules_bytes_size rs :
  nlen (rules_bytes rs) = fold_right (fun r n => rule_size r + n) 0 rs.
Proof.
  induction rs as [|r rs IH]; [reflexivity|].
  change (rules_bytes (r :: rs)) with (rule_bytes r ++ rules_bytes rs).
  rewrite nlen_app, rule_bytes_size, IH. reflexivity.
Qed.

Lemma mapping_bytes_size m : nlen (mapping_bytes m) = mapping_size m.
Proof.
  unfold mapping_bytes, mapping_size. rewrite !nlen_app, !nlen_cons, rules_bytes_size.
  change (nlen (be16 (nlen (m_headers m)))) with 2. lia.
Qed.

Lemma mappings_bytes_size ms :
  nlen (mappings_bytes ms) = fold_right (fun m n => mapping_size m + n) 0 ms.
Proof.
  induction ms as [|m ms IH]; [reflexivity|].
  change (mappings_bytes (m :: ms)) with (mapping_bytes m ++ mappings_bytes ms).
  rewrite nlen_app, mapping_bytes_size, IH. reflexivity.
Qed.

Lemma hrule_parse_ok r rest : rule_fits r -> hrule_parse (rule_bytes r ++ rest) = Ok (r, rest).
Proof.
  intros [Hk Hv]. unfold hrule_parse, rule_bytes, must_have.
  rewrite <- !app_assoc. cbn [app]. rewrite !nlen_cons.
  match goal with |- context [?a <? 2] => replace (a <? 2) with false by lia end.
  cbn [rbind get_u8].
  rewrite rss_ok' by exact Hk. cbn [rbind app].
  rewrite rss_ok' by exact Hv. cbn [rbind].
  destruct r as [o p k v]; cbn [hr_proxy hr_oper hr_key hr_val].
  destruct o, p; reflexivity.
Qed.

Lemma hrules_parse_ok rs rest :
  Forall rule_fits rs -> hrules_parse (length rs) (rules_bytes rs ++ rest) = Ok (rs, rest).
Proof.
  intros H. revert rest. induction H as [|r rs Hr Hrs IH]; intros rest; [reflexivity|].
  cbn [length hrules_parse].
  change (rules_bytes (r :: rs)) with (rule_bytes r ++ rules_bytes rs).
  rewrite <- app_assoc, hrule_parse_ok by exact Hr. cbn [rbind]. rewrite IH. reflexivity.
Qed.

Lemma get_u16_be16 n rest : n < 65536 -> get_u16 (be16 n ++ rest) = Ok (n, rest).
Proof. intros H. unfold be16. cbn [app get_u16]. f_equal. f_equal. lia. Qed.

Lemma must_have_be16 n rest : must_have 2 (be16 n ++ rest) = Ok (tt, be16 n ++ rest).
Proof.
  unfold must_have. rewrite nlen_app. change (nlen (be16 n)) with 2.
  replace (2 + nlen rest <? 2) with false by lia. reflexivity.
Qed.

Lemma mapping_parse1_ok m rest :
  mapping_fits m -> mapping_parse1 (mapping_bytes m ++ rest) = Ok (public_mapping m, rest).
Proof.
  intros (H1 & H2 & H3 & H4 & H5). change (2 ^ 16) with 65536 in H4.
  unfold mapping_parse1, mapping_bytes.
  rewrite <- !app_assoc. cbn [app].
  rewrite rss_ok' by exact H1. cbn [rbind app].
  rewrite rss_ok' by exact H2. cbn [rbind app].
  rewrite rss_ok' by exact H3. cbn [rbind app].
  rewrite must_have_be16. cbn [rbind].
  rewrite get_u16_be16 by exact H4. cbn [rbind].
  unfold nlen. rewrite Nnat.Nat2N.id.
  rewrite hrules_parse_ok by exact H5. reflexivity.
Qed.

Lemma mappings_parse_ok ms rest :
  Forall mapping_fits ms ->
  mappings_parse (length ms) (mappings_bytes ms ++ rest) = Ok (map public_mapping ms, rest).
Proof.
  intros H. revert rest. induction H as [|m ms Hm Hms IH]; intros rest; [reflexivity|].
  cbn [length mappings_parse map].
  change (mappings_bytes (m :: ms)) with (mapping_bytes m ++ mappings_bytes ms).
  rewrite <- app_assoc, mapping_parse1_ok by exact Hm. cbn [rbind]. rewrite IH. reflexivity.
Qed.

Lemma mapping_frame_bytes s ms :
  nlen ms < 2 ^ 16 -> Forall mapping_fits ms -> mappings_size ms < 2 ^ 24 ->
  mapping_encode s ms =
    (header_encode (Header (mappings_size ms) KMapping 0 s)
     ++ (be16 (nlen ms) ++ mappings_bytes ms), None).
Proof.
  intros Hn Hm Hs. unfold mapping_encode.
  rewrite mappings_encode_ok by exact Hm. unfold wseq; cbn [snd fst].
  change (2 ^ 16) with 65536 in Hn. rewrite (N.mod_small (nlen ms)) by exact Hn.
  rewrite nlen_app, mappings_bytes_size.
  change (nlen (be16 (nlen ms))) with 2. fold (mappings_size ms).
  change (2 ^ 24) with 16777216 in Hs.
  rewrite (N.mod_small (mappings_size ms)) by lia. reflexivity.
Qed.

Lemma wire_sock_0 : wire_sock 0.
Proof. exists 0, 0. repeat split. Qed.

(* ---- the round trip -------------------------------------------------- *)
Lemma roundtrip f rest :
  fits f ->
  snd (encode f) = None /\
  decode_frame (fst (encode f) ++ rest) = DFrame (public f) rest.
Proof.
  destruct f as [s d|s r|s d|s ms|u p]; cbn [fits encode public]; intros H.
  - (* create *)
    destruct H as [Hs Hd]. split; [reflexivity|]. unfold create_encode; cbn [fst].
    destruct d as [d|].
    + destruct Hd as [Hne [Hd Hl]].
      rewrite (N.mod_small (nlen d)) by lia.
      rewrite (N.mod_small (1 + nlen d)) by lia.
      unfold be8. rewrite (N.mod_small (nlen d) 256) by lia.
      apply decode_header; try assumption; try discriminate.
      * rewrite nlen_app, nlen_cons, nlen_nil. lia.
      * change (2 ^ 24) with 16777216. lia.
      * cbn [frame_parse h_kind]. unfold create_parse. cbn [app get_u8 rbind].
        rewrite nlen_app. replace (nlen d + nlen rest <? nlen d) with false by lia.
        assert (0 < nlen d).
        { destruct d; [congruence|rewrite nlen_cons; lia]. }
        replace (0 <? nlen d) with true by lia.
        unfold nlen. rewrite Nnat.Nat2N.id, firstn_app_exact, lossy_string by exact Hd.
        reflexivity.
    + apply decode_header; try assumption; try discriminate; try reflexivity.
      cbn [frame_parse h_kind]. unfold create_parse.
      change (be8 (nlen (@nil N) mod 4294967296) ++ []) with [0].
      cbn [app get_u8 rbind]. replace (nlen rest <? 0) with false by lia. reflexivity.
  - (* close *)
    destruct H as [Hs Hr]. pose proof Hr as [Hstr Hl].
    unfold close_encode. rewrite wss_ok by exact Hl. unfold wseq; cbn [snd fst].
    split; [reflexivity|].
    rewrite (N.mod_small (nlen r + 1)) by lia.
    apply decode_header; try assumption; try discriminate.
    + rewrite nlen_cons; lia.
    + change (2 ^ 24) with 16777216. lia.
    + cbn [frame_parse h_kind]. unfold close_parse. rewrite rss_ok by exact Hr. reflexivity.
  - (* data *)
    destruct H as (Hs & _ & Hl). split; [reflexivity|].
    unfold data_encode; cbn [fst].
    assert (Hm : nlen d mod 4294967296 = nlen d).
    { change (2 ^ 24) with 16777216 in Hl. apply N.mod_small. lia. }
    rewrite Hm.
    apply decode_header; try assumption; try discriminate; try reflexivity.
    cbn [frame_parse h_kind]. unfold data_parse; cbn [h_len h_sock].
    rewrite nlen_app. replace (nlen d + nlen rest <? nlen d) with false by lia.
    unfold nlen. rewrite Nnat.Nat2N.id, firstn_app_exact. reflexivity.
  - (* mapping *)
    destruct H as (Hs & Hn & Hm & Hz).
    rewrite mapping_frame_bytes by assumption. split; [reflexivity|]. cbn [fst].
    apply decode_header; try assumption; try discriminate.
    + rewrite nlen_app, mappings_bytes_size. reflexivity.
    + cbn [frame_parse h_kind]. unfold mapping_parse.
      rewrite <- app_assoc, must_have_be16. cbn [rbind].
      rewrite get_u16_be16 by exact Hn. cbn [rbind].
      unfold nlen. rewrite Nnat.Nat2N.id.
      rewrite mappings_parse_ok by exact Hm. reflexivity.
  - (* token *)
    destruct H as [Hu Hp]. pose proof Hu as [_ Hul]. pose proof Hp as [_ Hpl].
    unfold token_encode. rewrite !wss_ok by assumption. unfold wseq; cbn [snd fst].
    split; [reflexivity|].
    rewrite (N.mod_small (nlen u + 1 + nlen p + 1)) by lia.
    apply decode_header; try discriminate.
    + rewrite nlen_app, !nlen_cons; lia.
    + change (2 ^ 24) with 16777216. lia.
    + exact wire_sock_0.
    + cbn [frame_parse h_kind]. unfold token_parse.
      rewrite <- app_assoc, rss_ok by exact Hu. cbn [rbind].
      rewrite rss_ok by exact Hp. reflexivity.
Qed.
