(* Behaviour of the decoder on arbitrary bytes. *)
From Verif Require Import Base Text ProtModel ProtSpec ProtProofs.
Open Scope N_scope.

(* ---- readers never look past what they consumed ----------------------- *)
Definition mono {A} (r : rd A) : Prop :=
  forall b c a rest, r b = Ok (a, rest) -> r (b ++ c) = Ok (a, rest ++ c).

Lemma mono_u8 : mono get_u8.
Proof. intros [|x b] c a rest H; [discriminate|]. injection H as <- <-. reflexivity. Qed.
Lemma mono_u16 : mono get_u16.
Proof. intros [|x [|y b]] c a rest H; try discriminate. injection H as <- <-. reflexivity. Qed.
Lemma mono_u24 : mono read_u24.
Proof. intros [|x [|y [|z b]]] c a rest H; try discriminate. injection H as <- <-. reflexivity. Qed.
Lemma mono_u32 : mono get_u32.
Proof.
  intros [|x [|y [|z [|w b]]]] c a rest H; try discriminate. injection H as <- <-. reflexivity.
Qed.
Lemma mono_must n : mono (must_have n).
Proof.
  intros b c a rest H. unfold must_have in *.
  destruct (N.ltb_spec (nlen b) n); [discriminate|]. injection H as <- <-.
  rewrite nlen_app. replace (nlen b + nlen c <? n) with false by lia. reflexivity.
Qed.

Lemma mono_bind {A B} (r : rd A) (k : A -> rd B) :
  mono r -> (forall a, mono (k a)) -> mono (fun b => do (a, b1) <- r b ; k a b1).
Proof.
  intros Hr Hk b c a rest H. cbv beta in *.
  destruct (r b) as [[x b1]| |] eqn:E; cbn [rbind] in H; try discriminate.
  rewrite (Hr b c x b1 E). cbn [rbind]. apply Hk. exact H.
Qed.

Lemma mono_ret {A} (f : A) : mono (fun b => Ok (f, b)).
Proof. intros b c a rest H. injection H as <- <-. reflexivity. Qed.

Lemma firstn_app_le {A} n (a b : list A) : (n <= length a)%nat -> firstn n (a ++ b) = firstn n a.
Proof. intros H. rewrite firstn_app. replace (n - length a)%nat with O by lia.
       rewrite firstn_O, app_nil_r. reflexivity. Qed.
Lemma skipn_app_le {A} n (a b : list A) : (n <= length a)%nat -> skipn n (a ++ b) = skipn n a ++ b.
Proof. intros H. rewrite skipn_app. replace (n - length a)%nat with O by lia. reflexivity. Qed.

Lemma mono_rss : mono read_short_string.
Proof.
  intros b c a rest H. unfold read_short_string in *.
  destruct b as [|x b]; [discriminate|].
  cbn [app]. rewrite nlen_cons in *.
  replace (1 + nlen (b ++ c) <? 1) with false by lia.
  replace (1 + nlen b <? 1) with false in H by lia.
  cbn [get_u8 rbind] in *.
  destruct (N.ltb_spec (nlen b) x) as [|Hge]; [discriminate|].
  rewrite nlen_app. replace (nlen b + nlen c <? x) with false by lia.
  destruct (x =? 0); [injection H as <- <-; reflexivity|].
  injection H as <- <-. unfold nlen in Hge.
  rewrite firstn_app_le, skipn_app_le by lia. reflexivity.
Qed.

Lemma mono_hrule : mono hrule_parse.
Proof.
  unfold hrule_parse.
  apply (mono_bind (must_have 2)); [apply mono_must|intros _].
  apply (mono_bind get_u8); [apply mono_u8|intros p].
  apply (mono_bind get_u8); [apply mono_u8|intros o].
  apply (mono_bind read_short_string); [apply mono_rss|intros k].
  apply (mono_bind read_short_string); [apply mono_rss|intros v].
  apply mono_ret.
Qed.

Lemma mono_hrules n : mono (hrules_parse n).
Proof.
  induction n as [|n IH]; cbn [hrules_parse]; [apply (mono_ret [])|].
  apply (mono_bind hrule_parse); [apply mono_hrule|intros r].
  apply (mono_bind (hrules_parse n)); [exact IH|intros rs]. apply mono_ret.
Qed.

Lemma mono_mapping1 : mono mapping_parse1.
Proof.
  unfold mapping_parse1.
  apply (mono_bind read_short_string); [apply mono_rss|intros n].
  apply (mono_bind read_short_string); [apply mono_rss|intros m].
  apply (mono_bind read_short_string); [apply mono_rss|intros d].
  apply (mono_bind (must_have 2)); [apply mono_must|intros _].
  apply (mono_bind get_u16); [apply mono_u16|intros l].
  apply (mono_bind (hrules_parse (N.to_nat l))); [apply mono_hrules|intros hs].
  apply mono_ret.
Qed.

Lemma mono_mappings n : mono (mappings_parse n).
Proof.
  induction n as [|n IH]; cbn [mappings_parse]; [apply (mono_ret [])|].
  apply (mono_bind mapping_parse1); [apply mono_mapping1|intros r].
  apply (mono_bind (mappings_parse n)); [exact IH|intros rs]. apply mono_ret.
Qed.

Lemma frame_parse_mono h b c f : frame_parse h b = Ok f -> frame_parse h (b ++ c) = Ok f.
Proof.
  unfold frame_parse. destruct (h_kind h); intros H; try discriminate.
  - unfold data_parse in *.
    destruct (N.ltb_spec (nlen b) (h_len h)) as [|Hge]; [discriminate|].
    rewrite nlen_app. replace (nlen b + nlen c <? h_len h) with false by lia.
    rewrite firstn_app_le; [exact H|]. unfold nlen in Hge. lia.
  - unfold create_parse in *.
    destruct b as [|x b]; [discriminate|]. cbn [app get_u8 rbind] in *.
    destruct (N.ltb_spec (nlen b) x) as [|Hge]; [discriminate|].
    rewrite nlen_app. replace (nlen b + nlen c <? x) with false by lia.
    rewrite firstn_app_le; [exact H|]. unfold nlen in Hge. lia.
  - unfold close_parse in *.
    destruct (read_short_string b) as [[r b1]| |] eqn:E; cbn [rbind] in H; try discriminate.
    rewrite (mono_rss b c r b1 E). exact H.
  - unfold mapping_parse in *.
    destruct (must_have 2 b) as [[[] b0]| |] eqn:E0; cbn [rbind] in H; try discriminate.
    rewrite (mono_must 2 b c tt b0 E0). cbn [rbind].
    destruct (get_u16 b0) as [[l b1]| |] eqn:E1; cbn [rbind] in H; try discriminate.
    rewrite (mono_u16 b0 c l b1 E1). cbn [rbind].
    destruct (mappings_parse (N.to_nat l) b1) as [[ms b2]| |] eqn:E2;
      cbn [rbind] in H; try discriminate.
    rewrite (mono_mappings _ b1 c ms b2 E2). exact H.
  - unfold token_parse in *.
    destruct (read_short_string b) as [[u b1]| |] eqn:E; cbn [rbind] in H; try discriminate.
    rewrite (mono_rss b c u b1 E). cbn [rbind].
    destruct (read_short_string b1) as [[p b2]| |] eqn:E1; cbn [rbind] in H; try discriminate.
    rewrite (mono_rss b1 c p b2 E1). exact H.
Qed.

(* ---- a full description of decode_frame ------------------------------- *)
Lemma decode_frame_wait b :
  decode_frame b = DWait <-> match announced b with Some n => nlen b < n | None => True end.
Proof.
  unfold decode_frame.
  destruct b as [|x [|y [|z b]]]; try (split; intros _; [exact I|reflexivity]).
  cbn [announced read_u24].
  destruct (N.ltb_spec (nlen (x :: y :: z :: b)) 8) as [H|H].
  - split; [intros _|reflexivity]. lia.
  - unfold frame_header_bytes.
    destruct (N.ltb_spec (nlen (x :: y :: z :: b)) (x * 65536 + y * 256 + z + 12)) as [H1|H1].
    + split; [intros _; lia|reflexivity].
    + split; [|intros H2; lia].
      destruct (parse_by_len _ b) as [[h body]| |]; try discriminate.
      destruct (frame_parse h body); discriminate.
Qed.

(* A complete frame in the buffer: its twelve header bytes and the rest. *)
Lemma complete_frame_header b n :
  announced b = Some n -> n <= nlen b ->
  exists x y z k f s1 s2 s3 i1 i2 i3 i4 body,
    b = x :: y :: z :: k :: f :: s1 :: s2 :: s3 :: i1 :: i2 :: i3 :: i4 :: body /\
    n = 12 + (x * 65536 + y * 256 + z) /\
    decode_frame b =
      match frame_parse (Header (n - 12) (kind_new k) (flag_new f)
               (calc_sock_map (i1 * 16777216 + i2 * 65536 + i3 * 256 + i4)
                              (s1 * 65536 + s2 * 256 + s3))) body with
      | Ok fr => DFrame fr (skipn (N.to_nat n) b)
      | Err e => DFail e (skipn (N.to_nat n) b)
      | Panic => DPanic
      end.
Proof.
  intros Ha Hn.
  destruct b as [|x [|y [|z b]]]; try discriminate. cbn [announced] in Ha. injection Ha as Ha.
  assert (12 <= nlen (x :: y :: z :: b)) as H12 by lia.
  do 9 (destruct b as [|? b];
    [exfalso; unfold nlen in H12; cbn [length] in H12; lia|]).
  do 13 eexists. split; [reflexivity|]. split; [symmetry; exact Ha|].
  unfold decode_frame. unfold frame_header_bytes.
  match goal with |- context [nlen ?l <? 8] => replace (nlen l <? 8) with false by lia end.
  cbn [read_u24].
  match goal with |- context [nlen ?l <? ?m] => replace (nlen l <? m) with false by lia end.
  unfold parse_by_len, frame_header_bytes.
  match goal with |- context [nlen ?l <? ?m] => replace (nlen l <? m) with false end.
  2:{ symmetry; apply N.ltb_ge. rewrite !nlen_cons. lia. }
  cbn [get_u8 rbind read_u24 get_u32].
  replace (n - 12) with (x * 65536 + y * 256 + z) by lia.
  replace (x * 65536 + y * 256 + z + 12) with n by lia.
  reflexivity.
Qed.

Lemma decode_frame_app b c f r :
  decode_frame b = DFrame f r -> decode_frame (b ++ c) = DFrame f (r ++ c).
Proof.
  intros H.
  destruct (announced b) as [n|] eqn:Ha.
  2:{ assert (decode_frame b = DWait) as Hw by (apply decode_frame_wait; rewrite Ha; exact I).
      congruence. }
  destruct (N.ltb_spec (nlen b) n) as [Hlt|Hge].
  { assert (decode_frame b = DWait) as Hw by (apply decode_frame_wait; rewrite Ha; exact Hlt).
    congruence. }
  destruct (complete_frame_header b n Ha Hge)
    as (x & y & z & k & fl & s1 & s2 & s3 & i1 & i2 & i3 & i4 & body & Hb & Hn & Hd).
  rewrite Hd in H.
  assert (Ha' : announced (b ++ c) = Some n) by (rewrite Hb; cbn [app announced]; congruence).
  destruct (complete_frame_header (b ++ c) n Ha') as
    (x' & y' & z' & k' & fl' & s1' & s2' & s3' & i1' & i2' & i3' & i4' & body' & Hb' & Hn' & Hd').
  { rewrite nlen_app; lia. }
  rewrite Hd'. rewrite Hb in Hb'. cbn [app] in Hb'.
  injection Hb' as <- <- <- <- <- <- <- <- <- <- <- <- <-.
  destruct (frame_parse _ body) as [fr| |] eqn:E; try discriminate.
  rewrite (frame_parse_mono _ body c fr E). injection H as <- <-.
  f_equal. apply skipn_app_le. unfold nlen in Hge. lia.
Qed.

Lemma decode_frame_rest b n :
  announced b = Some n -> n <= nlen b ->
  decode_frame b = DPanic \/
  (exists f, decode_frame b = DFrame f (skipn (N.to_nat n) b)) \/
  (exists e, decode_frame b = DFail e (skipn (N.to_nat n) b)).
Proof.
  intros Ha Hn.
  destruct (complete_frame_header b n Ha Hn)
    as (x & y & z & k & fl & s1 & s2 & s3 & i1 & i2 & i3 & i4 & body & _ & _ & Hd).
  rewrite Hd. destruct (frame_parse _ body) as [fr|e|].
  - right; left; exists fr; reflexivity.
  - right; right; exists e; reflexivity.
  - left; reflexivity.
Qed.

(* ---- which inputs panic ---------------------------------------------- *)
Lemma rss_no_panic b : read_short_string b <> Panic.
Proof.
  unfold read_short_string. destruct b as [|x b]; [discriminate|].
  rewrite nlen_cons. replace (1 + nlen b <? 1) with false by lia. cbn [get_u8 rbind].
  destruct (nlen b <? x); [discriminate|]. destruct (x =? 0); discriminate.
Qed.

Lemma bind_no_panic {A B} (r : res perr A) (k : A -> res perr B) :
  r <> Panic -> (forall a, r = Ok a -> k a <> Panic) -> rbind r k <> Panic.
Proof. destruct r; cbn [rbind]; intros H1 H2; [apply H2; reflexivity|discriminate|congruence]. Qed.

Lemma must_have_two b t b0 : must_have 2 b = Ok (t, b0) -> exists x y r, b0 = x :: y :: r.
Proof.
  unfold must_have. destruct (N.ltb_spec (nlen b) 2) as [|H]; [discriminate|].
  intros E; injection E as _ <-.
  destruct b as [|x [|y r]]; try (unfold nlen in H; cbn [length] in H; lia).
  exists x, y, r; reflexivity.
Qed.

Lemma must_have_no_panic n b : must_have n b <> Panic.
Proof. unfold must_have; destruct (nlen b <? n); discriminate. Qed.

Lemma hrule_no_panic b : hrule_parse b <> Panic.
Proof.
  unfold hrule_parse. apply bind_no_panic; [apply must_have_no_panic|].
  intros [t b0] H. apply must_have_two in H as (x & y & r & ->).
  cbn [get_u8 rbind].
  apply bind_no_panic; [apply rss_no_panic|]. intros [k b3] _.
  apply bind_no_panic; [apply rss_no_panic|]. intros [v b4] _. discriminate.
Qed.

Lemma hrules_no_panic n b : hrules_parse n b <> Panic.
Proof.
  revert b; induction n as [|n IH]; intros b; cbn [hrules_parse]; [discriminate|].
  apply bind_no_panic; [apply hrule_no_panic|]. intros [r b1] _.
  apply bind_no_panic; [apply IH|]. intros [rs b2] _. discriminate.
Qed.

Lemma mapping1_no_panic b : mapping_parse1 b <> Panic.
Proof.
  unfold mapping_parse1.
  apply bind_no_panic; [apply rss_no_panic|]. intros [a1 b1] _.
  apply bind_no_panic; [apply rss_no_panic|]. intros [a2 b2] _.
  apply bind_no_panic; [apply rss_no_panic|]. intros [a3 b3] _.
  apply bind_no_panic; [apply must_have_no_panic|].
  intros [t b4] H. apply must_have_two in H as (x & y & r & ->).
  cbn [get_u16 rbind].
  apply bind_no_panic; [apply hrules_no_panic|]. intros [hs b6] _. discriminate.
Qed.

Lemma mappings_no_panic n b : mappings_parse n b <> Panic.
Proof.
  revert b; induction n as [|n IH]; intros b; cbn [mappings_parse]; [discriminate|].
  apply bind_no_panic; [apply mapping1_no_panic|]. intros [r b1] _.
  apply bind_no_panic; [apply IH|]. intros [rs b2] _. discriminate.
Qed.

Lemma frame_parse_panic h b :
  h_len h <= nlen b ->
  (frame_parse h b = Panic <-> h_kind h = KUnregistered \/ (h_kind h = KCreate /\ b = [])).
Proof.
  intros Hl. unfold frame_parse. destruct (h_kind h) eqn:Ek.
  - unfold data_parse. replace (nlen b <? h_len h) with false by lia.
    split; [discriminate|intros [?|[? _]]; discriminate].
  - unfold create_parse. destruct b as [|x b].
    + split; [intros _; right; split; reflexivity|reflexivity].
    + cbn [get_u8 rbind]. destruct (nlen b <? x);
        (split; [discriminate|intros [?|[_ ?]]; discriminate]).
  - split; [|intros [?|[? _]]; discriminate]. intros H; exfalso; revert H.
    unfold close_parse. apply bind_no_panic; [apply rss_no_panic|]. intros [? ?] _; discriminate.
  - split; [|intros [?|[? _]]; discriminate]. intros H; exfalso; revert H.
    unfold mapping_parse. apply bind_no_panic; [apply must_have_no_panic|].
    intros [t b4] H. apply must_have_two in H as (x & y & r & ->).
    cbn [get_u16 rbind]. apply bind_no_panic; [apply mappings_no_panic|].
    intros [hs b6] _. discriminate.
  - split; [|intros [?|[? _]]; discriminate]. intros H; exfalso; revert H.
    unfold token_parse. apply bind_no_panic; [apply rss_no_panic|]. intros [? b1] _.
    apply bind_no_panic; [apply rss_no_panic|]. intros [? ?] _; discriminate.
  - split; [intros _; left; reflexivity|reflexivity].
Qed.

Lemma kind_new_unreg k : kind_new k = KUnregistered <-> 5 <= k.
Proof.
  unfold kind_new.
  destruct (N.eqb_spec k 0); [split; [discriminate|lia]|].
  destruct (N.eqb_spec k 1); [split; [discriminate|lia]|].
  destruct (N.eqb_spec k 2); [split; [discriminate|lia]|].
  destruct (N.eqb_spec k 3); [split; [discriminate|lia]|].
  destruct (N.eqb_spec k 4); [split; [discriminate|lia]|].
  split; [lia|reflexivity].
Qed.

Lemma kind_new_create k : kind_new k = KCreate <-> k = 1.
Proof.
  unfold kind_new.
  destruct (N.eqb_spec k 0); [split; [discriminate|lia]|].
  destruct (N.eqb_spec k 1); [split; [intros _; lia|reflexivity]|].
  destruct (N.eqb_spec k 2); [split; [discriminate|lia]|].
  destruct (N.eqb_spec k 3); [split; [discriminate|lia]|].
  destruct (N.eqb_spec k 4); [split; [discriminate|lia]|].
  split; [discriminate|lia].
Qed.

(* Exactly: a complete frame whose kind byte is 5 or more, or a create frame
   with an empty payload that is the last thing in the buffer. *)
Lemma decode_panic_iff b :
  decode_frame b = DPanic <->
  exists n, announced b = Some n /\ n <= nlen b /\
    (5 <= nth 3 b 0 \/ (nth 3 b 0 = 1 /\ nlen b = 12)).
Proof.
  split.
  - intros H. destruct (announced b) as [n|] eqn:Ha.
    2:{ assert (decode_frame b = DWait) as Hw by (apply decode_frame_wait; rewrite Ha; exact I).
        congruence. }
    destruct (N.ltb_spec (nlen b) n) as [Hlt|Hge].
    { assert (decode_frame b = DWait) as Hw by (apply decode_frame_wait; rewrite Ha; exact Hlt).
      congruence. }
    exists n. split; [reflexivity|]. split; [exact Hge|].
    destruct (complete_frame_header b n Ha Hge)
      as (x & y & z & k & fl & s1 & s2 & s3 & i1 & i2 & i3 & i4 & body & Hb & Hn & Hd).
    rewrite Hd in H.
    assert (Hlen : nlen b = 12 + nlen body) by (rewrite Hb, !nlen_cons; lia).
    destruct (frame_parse _ body) as [| |] eqn:E; try discriminate.
    apply frame_parse_panic in E; [|cbn [h_len]; lia]. cbn [h_kind] in E.
    rewrite Hb at 1 2. cbn [nth].
    destruct E as [E|[E1 E2]].
    + left. apply kind_new_unreg; exact E.
    + right. subst body. split; [apply kind_new_create; exact E1|].
      change (nlen (@nil N)) with 0 in Hlen. lia.
  - intros (n & Ha & Hge & Hk).
    destruct (complete_frame_header b n Ha Hge)
      as (x & y & z & k & fl & s1 & s2 & s3 & i1 & i2 & i3 & i4 & body & Hb & Hn & Hd).
    rewrite Hd. assert (Hlen : nlen b = 12 + nlen body) by (rewrite Hb, !nlen_cons; lia).
    rewrite Hb in Hk at 1 2. cbn [nth] in Hk.
    match goal with |- context [frame_parse ?h body] =>
      assert (frame_parse h body = Panic) as ->; [|reflexivity] end.
    apply frame_parse_panic; [cbn [h_len]; lia|]. cbn [h_kind].
    destruct Hk as [Hk|[Hk1 Hk2]].
    + left. apply kind_new_unreg; exact Hk.
    + right. split; [apply kind_new_create; exact Hk1|].
      destruct body; [reflexivity|]. rewrite nlen_cons in Hlen; lia.
Qed.

(* ---- oversize ---------------------------------------------------------- *)
Lemma mapping_encode_error_clean s ms e :
  snd (encode (FMapping s ms)) = Some e -> fst (encode (FMapping s ms)) = [].
Proof.
  cbn [encode]. unfold mapping_encode.
  destruct (snd (wseq _ _)); cbn [snd fst]; [reflexivity|discriminate].
Qed.

(* A payload of exactly 16 MiB is announced as empty. *)
Lemma data_16MiB s d rest :
  wire_sock s -> nlen d = 2 ^ 24 ->
  decode_frame (fst (encode (FData s d)) ++ rest) = DFrame (FData s []) (d ++ rest).
Proof.
  intros Hs Hd. cbn [encode]. unfold data_encode; cbn [fst].
  change (2 ^ 24) with 16777216 in Hd.
  assert (Hh : header_encode (Header (nlen d mod 4294967296) KData 0 s)
               = header_encode (Header 0 KData 0 s)).
  { rewrite Hd. reflexivity. }
  rewrite Hh, <- app_assoc.
  rewrite <- (app_nil_r (header_encode (Header 0 KData 0 s))).
  apply decode_header; try assumption; try discriminate; try reflexivity.
  cbn [frame_parse h_kind app]. unfold data_parse; cbn [h_len h_sock].
  replace (nlen (d ++ rest) <? 0) with false by lia. reflexivity.
Qed.

(* Overlong strings are reported wherever write_short_string is used. *)
Lemma wss_long s : 255 < nlen s -> write_short_string s = ([], Some TooShort).
Proof. intros H. unfold write_short_string. replace (255 <? nlen s) with true by lia. reflexivity. Qed.

Lemma wss_err s : snd (write_short_string s) = (if 255 <? nlen s then Some TooShort else None).
Proof. unfold write_short_string. destruct (255 <? nlen s); reflexivity. Qed.

Lemma wseq_err a b :
  snd (wseq a b) = match snd a with Some e => Some e | None => snd b end.
Proof. unfold wseq. destruct (snd a) eqn:E; [exact E|reflexivity]. Qed.

Definition long (s : bytes) : bool := 255 <? nlen s.
Definition rule_long (r : hrule) : bool := long (hr_key r) || long (hr_val r).
Definition mapping_long (m : mapping) : bool :=
  long (m_name m) || long (m_mode m) || long (m_domain m) || existsb rule_long (m_headers m).

Lemma hrules_encode_err rs :
  snd (hrules_encode rs) = if existsb rule_long rs then Some TooShort else None.
Proof.
  induction rs as [|r rs IH]; [reflexivity|]. cbn [hrules_encode existsb].
  rewrite wseq_err. unfold hrule_encode. rewrite !wseq_err, !wss_err, IH. cbn [snd].
  unfold rule_long, long.
  destruct (255 <? nlen (hr_key r)); [reflexivity|].
  destruct (255 <? nlen (hr_val r)); reflexivity.
Qed.

Lemma mappings_encode_err ms :
  snd (mappings_encode ms) = if existsb mapping_long ms then Some TooShort else None.
Proof.
  induction ms as [|m ms IH]; [reflexivity|]. cbn [mappings_encode existsb].
  rewrite wseq_err. unfold mapping_encode1.
  rewrite !wseq_err, !wss_err, hrules_encode_err, IH. cbn [snd].
  unfold mapping_long, long.
  destruct (255 <? nlen (m_name m)); [reflexivity|].
  destruct (255 <? nlen (m_mode m)); [reflexivity|].
  destruct (255 <? nlen (m_domain m)); [reflexivity|].
  cbn [orb]. destruct (existsb rule_long (m_headers m)); reflexivity.
Qed.

Lemma mapping_encode_err s ms :
  existsb mapping_long ms = true -> encode (FMapping s ms) = ([], Some TooShort).
Proof.
  intros H. cbn [encode]. unfold mapping_encode.
  rewrite wseq_err. cbn [snd]. rewrite mappings_encode_err, H. reflexivity.
Qed.

Lemma close_encode_err s r :
  255 < nlen r -> snd (encode (FClose s r)) = Some TooShort.
Proof. intros H. cbn [encode]. unfold close_encode. rewrite wseq_err, wss_long by assumption.
       reflexivity. Qed.
Lemma token_encode_err u p :
  255 < nlen u \/ 255 < nlen p -> snd (encode (FToken u p)) = Some TooShort.
Proof.
  intros H. cbn [encode]. unfold token_encode. rewrite !wseq_err, !wss_err. cbn [snd].
  destruct (N.ltb_spec 255 (nlen u)); [reflexivity|].
  destruct (N.ltb_spec 255 (nlen p)); [reflexivity|lia].
Qed.

(* A domain of exactly 256 bytes is announced as absent. *)
Lemma create_256 s d rest :
  wire_sock s -> nlen d = 256 ->
  decode_frame (fst (encode (FCreate s (Some d))) ++ rest) = DFrame (FCreate s None) rest.
Proof.
  intros Hs Hd. cbn [encode]. unfold create_encode; cbn [fst]. rewrite Hd.
  change ((1 + 256 mod 4294967296) mod 4294967296) with 257.
  change (be8 (256 mod 4294967296)) with [0].
  apply decode_header; try assumption; try discriminate; try reflexivity.
  - cbn [app]. rewrite nlen_cons, Hd. reflexivity.
  - cbn [frame_parse h_kind app]. unfold create_parse; cbn [get_u8 rbind h_sock].
    replace (nlen (d ++ rest) <? 0) with false by lia. reflexivity.
Qed.

(* Mapping lists longer than their two-byte count: only the count modulo 65536 is
   announced, and the rest of the list is skipped with the frame. *)
Lemma mappings_bytes_app a b : mappings_bytes (a ++ b) = mappings_bytes a ++ mappings_bytes b.
Proof. apply flat_map_app. Qed.
Lemma mapping_wraps s ms rest :
  wire_sock s -> Forall mapping_fits ms -> mappings_size ms < 2 ^ 24 ->
  snd (encode (FMapping s ms)) = None /\
  decode_frame (fst (encode (FMapping s ms)) ++ rest) =
    DFrame (FMapping s (map public_mapping (firstn (N.to_nat (nlen ms mod 65536)) ms))) rest.
Proof.
  intros Hs Hm Hz. change (2 ^ 24) with 16777216 in Hz.
  set (k := nlen ms mod 65536).
  assert (E : encode (FMapping s ms) = (header_encode (Header (mappings_size ms) KMapping 0 s)
     ++ (be16 k ++ mappings_bytes ms), None)).
  { cbn [encode]. unfold mapping_encode. rewrite mappings_encode_ok by exact Hm. unfold wseq; cbn [snd fst].
    rewrite nlen_app, mappings_bytes_size. fold k.
    change (nlen (be16 k)) with 2. fold (mappings_size ms).
    rewrite (N.mod_small (mappings_size ms)) by lia. reflexivity. }
  rewrite E. split; [reflexivity|]. cbn [fst].
  apply decode_header; try assumption; try discriminate.
  - rewrite nlen_app, mappings_bytes_size. reflexivity.
  - cbn [frame_parse h_kind]. unfold mapping_parse.
    rewrite <- app_assoc, must_have_be16. cbn [rbind].
    rewrite get_u16_be16 by (unfold k; lia). cbn [rbind].
    rewrite <- (firstn_skipn (N.to_nat k) ms) at 1. rewrite mappings_bytes_app, <- app_assoc.
    assert (L : N.to_nat k = length (firstn (N.to_nat k) ms)).
    { rewrite firstn_length. assert (k <= nlen ms) by (unfold k; lia). unfold nlen in *. lia. }
    rewrite L at 1. rewrite mappings_parse_ok; [reflexivity|].
    rewrite Forall_forall in *. intros m Hi. apply Hm. rewrite <- (firstn_skipn (N.to_nat k) ms).
    apply in_app_iff. left. exact Hi.
Qed.
