(* C39, C40: ranges, in terms of requests and answers. *)
From Coq Require Import String.
From Verif Require Import Base Text TextOps FileModel FileSpec FileProofs FileProps CxSpec CxProofs GxSpec GxProofs RgSpec.
Open Scope N_scope.

Lemma count_nil n : ~ count [] n.
Proof. intros H. destruct (count_last _ _ H) as (t & c & E & _). destruct t; discriminate E. Qed.
Lemma interval_iff v len s e : interval v len s e <-> calc_bytes_range v len = Some (s, e).
Proof.
  unfold interval, calc_bytes_range. split.
  - intros (u & w & r & rs & a & b & P1 & T & P2 & P3 & A & B & L). apply pieces_iff in P1, P2, P3. rewrite P1, T. change (leqb (txt "bytes") (txt "bytes")) with true. cbv iota.
    rewrite P2, P3.
    assert (XA : match a with [] => Some 0 | _ => parse_uint u64_max a end = Some s).
    { destruct A as [(-> & ->)|A]; [reflexivity|]. destruct a; [destruct (count_nil _ A)|apply count_parse; exact A]. }
    assert (XB : match b with [] => Some len | _ => parse_uint u64_max b end = Some e).
    { destruct B as [(-> & ->)|B]; [reflexivity|]. destruct b; [destruct (count_nil _ B)|apply count_parse; exact B]. }
    rewrite XA, XB. now replace (e <? s) with false by lia.
  - destruct (split_on 61 v) as [|u [|w [|]]] eqn:P1; try discriminate. destruct (leqb (trim u) (txt "bytes")) eqn:T; [|discriminate]. apply leqb_ok in T.
    destruct (split_on 44 w) as [|r rs] eqn:P2; [discriminate|]. destruct (split_on 45 (trim r)) as [|a [|b [|]]] eqn:P3; try discriminate.
    destruct (match a with [] => Some 0 | _ => parse_uint u64_max a end) as [s'|] eqn:A; [|discriminate].
    destruct (match b with [] => Some len | _ => parse_uint u64_max b end) as [e'|] eqn:B; [|discriminate].
    destruct (N.ltb_spec e' s'); [discriminate|]. intros [= -> ->]. exists u, w, r, rs, a, b.
    split; [apply pieces_iff; exact P1|]. split; [exact T|]. split; [apply pieces_iff; exact P2|]. split; [apply pieces_iff; exact P3|].
    split; [destruct a; [left; split; congruence|right; apply count_parse; exact A]|]. split; [destruct b; [left; split; congruence|right; apply count_parse; exact B]|assumption].
Qed.

Section Ranges.
  Context (decode : text -> option text) (date : text -> option N) (fmt : N -> text) (seek : option N -> N -> N -> bool).
  Context (fs : node) (cwd : list text) (cwdt : text) (c : fcfg) (q : freq) (ns : list text) (content : bytes) (mt : option N).
  Lemma range_answer v : asks_for fs cwd cwdt c q ns content mt -> asks_range q v -> no_conditions q -> (forall s e, seek (Some (nlen content)) s e = true) ->
    exists r, deal decode date fmt seek fs cwd cwdt c q = Ok r /\
      match calc_bytes_range v (nlen content) with Some (s, e) => partial_answer ns content s e r | None => empty_answer content r end.
  Proof.
    intros AF (HD & I3 & I4 & RG) (I1 & I2) SK. destruct (deal_asks decode date fmt seek _ _ _ _ _ _ _ _ AF) as (m & E & A). rewrite E. unfold send_file. rewrite A. unfold try_cache. rewrite I1, I2.
    unfold after_file, if_range_ok, range_wanted. rewrite I3, I4, RG. unfold head_body. rewrite HD. destruct (calc_bytes_range v (nlen content)) as [[s e]|].
    - rewrite meta_body, plain_body, !hset_body. cbn [s_body body_len]. rewrite SK. eexists. split; [reflexivity|]. unfold partial_answer. cbn [set_status s_status s_body hset set_body with_part].
      split; [reflexivity|]. split; [reflexivity|]. apply lookup_insert.
    - eexists. split; [reflexivity|]. split; [reflexivity|]. split; [reflexivity|]. apply lookup_insert.
  Qed.
  Lemma range_answer' g : asks_for fs cwd cwdt c q ns content mt -> asks_range q (range_text g) -> no_conditions q -> range_valid g -> (forall s e, seek (Some (nlen content)) s e = true) ->
    exists r, deal decode date fmt seek fs cwd cwdt c q = Ok r /\
      match g with
      | FirstLast a b => partial_answer ns content a b r
      | From a => if nlen content <? a then empty_answer content r else partial_answer ns content a (nlen content) r
      | Suffix n => partial_answer ns content 0 n r
      end.
  Proof.
    intros AF AR NC V SK. destruct (range_answer _ AF AR NC SK) as (r & D & X). exists r. split; [exact D|]. rewrite calc_range_all in X by exact V.
    destruct g as [a b|a|n]; try exact X. destruct (nlen content <? a); exact X.
  Qed.
End Ranges.
Lemma partial_same ns content s e s' e' r : partial_answer ns content s e r -> partial_answer ns content s' e' r -> s = s' /\ e = e'.
Proof. intros (_ & B & _) (_ & B' & _). rewrite B in B'. injection B' as -> ->. auto. Qed.
Lemma partial_empty ns content s e r : partial_answer ns content s e r -> empty_answer content r -> False.
Proof. intros (S1 & _) (S2 & _). rewrite S1 in S2. discriminate S2. Qed.

(* C39: the answer to every Range header: the interval it names, 416 if it names none. *)
Theorem C39_header : forall decode date fmt seek fs cwd cwdt c q ns content mt v,
  asks_for fs cwd cwdt c q ns content mt -> asks_range q v -> no_conditions q -> (forall s e, seek (Some (nlen content)) s e = true) ->
  exists r, deal decode date fmt seek fs cwd cwdt c q = Ok r /\
    ((exists s e, interval v (nlen content) s e /\ partial_answer ns content s e r) \/ ((forall s e, ~ interval v (nlen content) s e) /\ empty_answer content r)).
Proof.
  intros decode date fmt seek fs cwd cwdt c q ns content mt v AF AR NC SK. destruct (range_answer decode date fmt seek _ _ _ _ _ _ _ _ _ AF AR NC SK) as (r & D & X). exists r. split; [exact D|].
  destruct (calc_bytes_range v (nlen content)) as [[s e]|] eqn:C.
  - left. exists s, e. split; [apply interval_iff; exact C|exact X].
  - right. split; [|exact X]. intros s e I. apply interval_iff in I. congruence.
Qed.
(* C39: exactly when the answer is the one of RFC 7233. *)
Theorem C39_exact : forall decode date fmt seek fs cwd cwdt c q ns content mt g,
  asks_for fs cwd cwdt c q ns content mt -> asks_range q (range_text g) -> no_conditions q -> range_valid g -> (forall s e, seek (Some (nlen content)) s e = true) ->
  exists r, deal decode date fmt seek fs cwd cwdt c q = Ok r /\
    (rfc_answer g ns content r <-> match g with FirstLast _ b => b < nlen content | From a => nlen content < a | Suffix _ => False end).
Proof.
  intros decode date fmt seek fs cwd cwdt c q ns content mt g AF AR NC V SK. destruct (range_answer' decode date fmt seek _ _ _ _ _ _ _ _ _ AF AR NC V SK) as (r & D & X). exists r. split; [exact D|].
  unfold rfc_answer. destruct g as [a b|a|n]; cbn [selects range_valid] in *.
  - destruct (N.ltb_spec a (nlen content)).
    + split.
      * intros (P & _). assert (Y := P a (N.min b (nlen content - 1)) eq_refl). destruct (partial_same _ _ _ _ _ _ _ X Y) as (_ & Z). lia.
      * intros L. split; [|discriminate]. intros s e [= -> ->]. replace (N.min b (nlen content - 1)) with b by lia. exact X.
    + split; [|lia]. intros (_ & P). destruct (partial_empty _ _ _ _ _ X (P eq_refl)).
  - destruct (N.ltb_spec (nlen content) a); destruct (N.ltb_spec a (nlen content)); try lia.
    + split; [lia|]. intros _. split; [discriminate|]. intros _. exact X.
    + split; [|lia]. intros (P & _). destruct (partial_same _ _ _ _ _ _ _ X (P _ _ eq_refl)) as (_ & Z). lia.
    + split; [|lia]. intros (_ & P). destruct (partial_empty _ _ _ _ _ X (P eq_refl)).
  - split; [|tauto]. intros (P & Q). destruct ((0 <? n) && (0 <? nlen content)) eqn:B.
    + destruct (partial_same _ _ _ _ _ _ _ X (P _ _ eq_refl)) as (Z & W). lia.
    + destruct (partial_empty _ _ _ _ _ X (Q eq_refl)).
Qed.
(* C39 is false of the code: the last n bytes are asked for, bytes 0 to n are sent. *)
Theorem C39_suffix_refuted : forall decode date fmt seek fs cwd cwdt c q ns content mt n,
  asks_for fs cwd cwdt c q ns content mt -> asks_range q (txt "bytes=-" ++ show n) -> no_conditions q -> n <= u64_max -> (forall s e, seek (Some (nlen content)) s e = true) ->
  0 < n -> n < nlen content ->
  exists r, deal decode date fmt seek fs cwd cwdt c q = Ok r /\ partial_answer ns content 0 n r /\ selects (Suffix n) (nlen content) (Some (nlen content - n, nlen content - 1)).
Proof.
  intros decode date fmt seek fs cwd cwdt c q ns content mt n AF AR NC V SK L1 L2. destruct (range_answer' decode date fmt seek _ _ _ _ _ _ _ _ (Suffix n) AF AR NC V SK) as (r & D & X).
  exists r. split; [exact D|]. split; [exact X|]. cbn [selects]. replace ((0 <? n) && (0 <? nlen content)) with true by lia. f_equal. f_equal. lia.
Qed.
(* C39 is false of the code: an open interval is given one byte too many. *)
Theorem C39_open_refuted : forall decode date fmt seek fs cwd cwdt c q ns content mt a,
  asks_for fs cwd cwdt c q ns content mt -> asks_range q (txt "bytes=" ++ show a ++ txt "-") -> no_conditions q -> a <= u64_max -> (forall s e, seek (Some (nlen content)) s e = true) ->
  a < nlen content ->
  exists r, deal decode date fmt seek fs cwd cwdt c q = Ok r /\ partial_answer ns content a (nlen content) r /\ selects (From a) (nlen content) (Some (a, nlen content - 1)).
Proof.
  intros decode date fmt seek fs cwd cwdt c q ns content mt a AF AR NC V SK L. destruct (range_answer' decode date fmt seek _ _ _ _ _ _ _ _ (From a) AF AR NC V SK) as (r & D & X).
  exists r. split; [exact D|]. replace (nlen content <? a) with false in X by lia. split; [exact X|]. cbn [selects]. now replace (a <? nlen content) with true by lia.
Qed.
(* C39 is false of the code: an interval after the end of the file is answered 206. *)
Theorem C39_beyond_refuted : forall decode date fmt seek fs cwd cwdt c q ns content mt a b,
  asks_for fs cwd cwdt c q ns content mt -> asks_range q (txt "bytes=" ++ show a ++ txt "-" ++ show b) -> no_conditions q -> b <= u64_max -> (forall s e, seek (Some (nlen content)) s e = true) ->
  a <= b -> nlen content <= a ->
  exists r, deal decode date fmt seek fs cwd cwdt c q = Ok r /\ partial_answer ns content a b r /\ selects (FirstLast a b) (nlen content) None.
Proof.
  intros decode date fmt seek fs cwd cwdt c q ns content mt a b AF AR NC V SK L1 L2. destruct (range_answer' decode date fmt seek _ _ _ _ _ _ _ _ (FirstLast a b) AF AR NC (conj L1 V) SK) as (r & D & X).
  exists r. split; [exact D|]. split; [exact X|]. cbn [selects]. now replace (a <? nlen content) with false by lia.
Qed.
(* C39 is false of the code: a header of another unit is to be ignored (RFC 7233 3.1), but
   is answered 416. *)
Theorem C39_unit_refuted : forall decode date fmt seek fs cwd cwdt c q ns content mt u v,
  asks_for fs cwd cwdt c q ns content mt -> asks_range q (u ++ txt "=" ++ v) -> no_conditions q -> (forall s e, seek (Some (nlen content)) s e = true) ->
  ~ In 61 u -> trim u <> txt "bytes" ->
  exists r, deal decode date fmt seek fs cwd cwdt c q = Ok r /\ empty_answer content r.
Proof.
  intros decode date fmt seek fs cwd cwdt c q ns content mt u v AF AR NC SK NI NB. destruct (C39_header decode date fmt seek _ _ _ _ _ _ _ _ _ AF AR NC SK) as (r & D & [(s & e & I & _)|(_ & X)]); [|eauto].
  exfalso. destruct I as (u' & w & _ & _ & _ & _ & (_ & E & F) & T & _). cbn [joined] in E. apply NB. rewrite <- T. f_equal.
  assert (NU : ~ In 61 u') by (apply F; left; reflexivity). change (txt "=" ++ v) with (61 :: v) in E. clear - E NI NU. revert u' NU E. induction u as [|x u IH]; intros [|y u'] NU E; cbn [app] in E.
  - reflexivity.
  - injection E as <- _. destruct NU. left. reflexivity.
  - injection E as -> _. destruct NI. left. reflexivity.
  - injection E as -> E. f_equal. apply IH; [intros I; apply NI; right; exact I|intros I; apply NU; right; exact I|exact E].
Qed.
(* C40 is false of the code: with a Range header that names no interval, a matching tag is
   answered 416, not 304. *)
Theorem C40_range_refuted : forall decode date fmt seek fs cwd cwdt c q ns content mt v,
  asks_for fs cwd cwdt c q ns content mt -> asks_range q v -> q_inm q = Some (calc_etag mt (nlen content)) ->
  (forall s e, ~ interval v (nlen content) s e) ->
  exists r, deal decode date fmt seek fs cwd cwdt c q = Ok r /\ s_status r = 416.
Proof.
  intros decode date fmt seek fs cwd cwdt c q ns content mt v AF (HD & I3 & I4 & RG) I1 NI.
  assert (CR : calc_bytes_range v (nlen content) = None). { destruct (calc_bytes_range v (nlen content)) as [[s e]|] eqn:C; [|reflexivity]. apply interval_iff in C. destruct (NI _ _ C). }
  destruct (deal_asks decode date fmt seek _ _ _ _ _ _ _ _ AF) as (m & E & A). rewrite E. unfold send_file. rewrite A. unfold try_cache. rewrite I1, leqb_refl.
  unfold after_file, if_range_ok, range_wanted. rewrite I3, I4, RG, CR. unfold head_body. rewrite HD. eexists. split; reflexivity.
Qed.
(* C40 is false of the code: with a Range header that names an interval, a matching tag is
   answered 206 and the interval, but without content, if an empty body can be positioned. *)
Theorem C40_interval_refuted : forall decode date fmt seek fs cwd cwdt c q ns content mt v s e,
  asks_for fs cwd cwdt c q ns content mt -> asks_range q v -> q_inm q = Some (calc_etag mt (nlen content)) ->
  interval v (nlen content) s e -> seek None s e = true ->
  exists r, deal decode date fmt seek fs cwd cwdt c q = Ok r /\ s_status r = 206 /\ s_body r = BNone /\
    hget (txt "Content-Range") r = Some (txt "bytes " ++ show s ++ txt "-" ++ show e ++ txt "/" ++ show (nlen content)).
Proof.
  intros decode date fmt seek fs cwd cwdt c q ns content mt v s e AF (HD & I3 & I4 & RG) I1 IV SK. apply interval_iff in IV.
  destruct (deal_asks decode date fmt seek _ _ _ _ _ _ _ _ AF) as (m & E & A). rewrite E. unfold send_file. rewrite A. unfold try_cache. rewrite I1, leqb_refl.
  unfold after_file, if_range_ok, range_wanted. rewrite I3, I4, RG, IV. unfold head_body. rewrite HD, meta_body, plain_body. cbn [s_body body_len]. rewrite SK. eexists. split; [reflexivity|].
  cbn [fst]. split; [reflexivity|]. split; [|apply lookup_insert]. reflexivity.
Qed.

Definition rg_q (r : text) : freq := FReq (txt "/static/sub/a.txt") false None None None None None (Some r).
Definition rg_ns : list text := [txt "srv"; txt "www"; txt "sub"; txt "a.txt"].
Example rg_asks r : asks_for ex_fs [] (txt "/") ex_cfg (rg_q r) rg_ns [9; 9; 9; 9] (Some 60).
Proof.
  exists (txt "sub/a.txt"). split; [reflexivity|]. split; [reflexivity|]. split; [apply contains_percent; reflexivity|]. do 2 (split; [apply hide_none; reflexivity|]). repeat (split; [reflexivity|]). left. reflexivity.
Qed.
Example rg_range r : asks_range (rg_q r) r /\ no_conditions (rg_q r). Proof. repeat split. Qed.
Example C39_interval : interval (txt " bytes = 1-2 , 3-") 4 1 2 /\ interval (txt "bytes=-") 4 0 4 /\ (forall s e, ~ interval (txt "bytes=3-1") 4 s e) /\ (forall s e, ~ interval (txt "lines=1-2") 4 s e).
Proof.
  split; [apply interval_iff; reflexivity|]. split; [apply interval_iff; reflexivity|].
  split; intros s e I; apply interval_iff in I; vm_compute in I; discriminate I.
Qed.
Example C39_example :
  (exists r, ex_deal ex_cfg (rg_q (txt "bytes=1-2")) = Ok r /\ partial_answer rg_ns [9; 9; 9; 9] 1 2 r) /\
  (exists r, ex_deal ex_cfg (rg_q (txt "bytes=3-1")) = Ok r /\ empty_answer [9; 9; 9; 9] r) /\
  (exists r, ex_deal ex_cfg (rg_q (txt "bytes=7-9")) = Ok r /\ partial_answer rg_ns [9; 9; 9; 9] 7 9 r) /\
  (exists r, ex_deal ex_cfg (rg_q (txt "bytes=-1")) = Ok r /\ partial_answer rg_ns [9; 9; 9; 9] 0 1 r) /\
  (exists r, ex_deal ex_cfg (rg_q (txt "bytes=2-")) = Ok r /\ partial_answer rg_ns [9; 9; 9; 9] 2 4 r) /\
  (exists r, ex_deal ex_cfg (rg_q (txt "lines=1-2")) = Ok r /\ empty_answer [9; 9; 9; 9] r).
Proof. repeat split; vm_compute; eexists; (split; [reflexivity|]); (split; [reflexivity|]); split; reflexivity. Qed.

Print Assumptions C39_header.
Print Assumptions C39_exact.
Print Assumptions C39_suffix_refuted.
Print Assumptions C39_open_refuted.
Print Assumptions C39_beyond_refuted.
Print Assumptions C39_unit_refuted.
Print Assumptions C40_range_refuted.
Print Assumptions C40_interval_refuted.
