(* Decoding a byte stream cut into arbitrary reads. *)
From Verif Require Import Base Text ProtModel ProtSpec ProtProofs.
Open Scope N_scope.

(* Every encodable frame is a 12-byte header announcing its payload length,
   followed by the payload. *)
Lemma encode_shape f :
  fits f ->
  exists len k s body,
    fst (encode f) = header_encode (Header len k 0 s) ++ body /\ len = nlen body /\ len < 2 ^ 24.
Proof.
  destruct f as [s d|s r|s d|s ms|u p]; cbn [fits encode]; intros H.
  - destruct H as [Hs Hd]. unfold create_encode; cbn [fst].
    eexists _, KCreate, s, _. split; [reflexivity|].
    change (2 ^ 24) with 16777216.
    rewrite nlen_app. change (nlen (be8 _)) with 1.
    destruct d as [d|]; [destruct Hd as [_ [_ Hl]]|change (nlen (@nil N)) with 0; lia].
    lia.
  - destruct H as [Hs [_ Hl]]. unfold close_encode. rewrite wss_ok by exact Hl.
    unfold wseq; cbn [snd fst]. eexists _, KClose, s, _. split; [reflexivity|].
    change (2 ^ 24) with 16777216. rewrite nlen_cons. lia.
  - destruct H as (Hs & _ & Hl). unfold data_encode; cbn [fst].
    eexists _, KData, s, _. split; [reflexivity|].
    change (2 ^ 24) with 16777216 in *. lia.
  - destruct H as (Hs & Hn & Hm & Hz). rewrite mapping_frame_bytes by assumption. cbn [fst].
    eexists _, KMapping, s, _. split; [reflexivity|]. split; [|exact Hz].
    rewrite nlen_app, mappings_bytes_size. reflexivity.
  - destruct H as [[_ Hu] [_ Hp]]. unfold token_encode. rewrite !wss_ok by assumption.
    unfold wseq; cbn [snd fst]. eexists _, KToken, 0, _. split; [reflexivity|].
    change (2 ^ 24) with 16777216. rewrite nlen_app, !nlen_cons. lia.
Qed.

(* A strictly incomplete frame makes the decoder wait. *)
Lemma decode_incomplete f b c :
  fits f -> fst (encode f) = b ++ c -> c <> [] -> decode_frame b = DWait.
Proof.
  intros Hf He Hc. destruct (encode_shape f Hf) as (len & k & s & body & Hsh & Hl & Hlt).
  rewrite He in Hsh. unfold decode_frame.
  destruct (N.ltb_spec (nlen b) 8) as [_|Hge]; [reflexivity|].
  assert (Hlen : nlen b + nlen c = 12 + len).
  { rewrite <- nlen_app, Hsh, nlen_app, header_encode_nlen. lia. }
  assert (0 < nlen c).
  { destruct c; [congruence|rewrite nlen_cons; lia]. }
  destruct b as [|b0 [|b1 [|b2 b']]];
    try (unfold nlen in Hge; cbn [length] in Hge; lia).
  cbn [read_u24].
  unfold header_encode in Hsh; cbn [h_len h_kind h_flag h_sock] in Hsh.
  unfold be24 at 1 in Hsh. cbn [app] in Hsh. injection Hsh as -> -> -> _.
  unfold frame_header_bytes.
  change (2 ^ 24) with 16777216 in Hlt.
  replace (len / 65536 mod 256 * 65536 + len / 256 mod 256 * 256 + len mod 256) with len by lia.
  match goal with |- context [nlen ?l <? ?n] => replace (nlen l <? n) with true by lia end.
  reflexivity.
Qed.

Lemma encode_nonempty f : fits f -> 12 <= nlen (fst (encode f)).
Proof.
  intros Hf. destruct (encode_shape f Hf) as (len & k & s & body & -> & _ & _).
  rewrite nlen_app, header_encode_nlen. lia.
Qed.

Lemma wire_cons f fs : wire (f :: fs) = fst (encode f) ++ wire fs.
Proof. reflexivity. Qed.

Lemma wire_app a b : wire (a ++ b) = wire a ++ wire b.
Proof. unfold wire; apply flat_map_app. Qed.

Lemma app_prefix_split {A} (a b x y : list A) :
  a ++ b = x ++ y -> (length a <= length x)%nat -> exists z, x = a ++ z /\ b = z ++ y.
Proof.
  revert x. induction a as [|h a IH]; intros x H Hl.
  - exists x; split; [reflexivity|exact H].
  - destruct x as [|h' x]; [cbn [length] in Hl; lia|].
    cbn [app] in H. injection H as -> H. cbn [length] in Hl.
    destruct (IH x H) as (z & -> & ->); [lia|]. exists z; split; reflexivity.
Qed.

Lemma complete_split fs n :
  exists fs2, fs = complete n fs ++ fs2 /\
    nlen (wire (complete n fs)) <= n /\
    (forall n', n <= n' -> complete n' fs
       = complete n fs ++ complete (n' - nlen (wire (complete n fs))) fs2).
Proof.
  revert n. induction fs as [|f fs IH]; intros n.
  - exists []. cbn [complete]. repeat split.
    change (nlen (wire [])) with 0. lia.
  - cbn [complete]. destruct (N.leb_spec (nlen (fst (encode f))) n) as [Hle|Hgt].
    + destruct (IH (n - nlen (fst (encode f)))) as (fs2 & H1 & H2 & H3).
      exists fs2. rewrite wire_cons, nlen_app. split; [cbn [app]; congruence|].
      split; [lia|]. intros n' Hn'.
      replace (nlen (fst (encode f)) <=? n') with true by lia.
      cbn [app]. f_equal. rewrite H3 by lia. f_equal. f_equal. lia.
    + exists (f :: fs). split; [reflexivity|]. change (nlen (wire [])) with 0.
      split; [lia|]. intros n' Hn'. cbn [app]. rewrite N.sub_0_r. reflexivity.
Qed.

Lemma drain_prefix fs : Forall fits fs ->
  forall b c fuel, wire fs = b ++ c -> (length b < fuel)%nat ->
  drain fuel b = (map public (complete (nlen b) fs),
                  skipn (length (wire (complete (nlen b) fs))) b, StopWait).
Proof.
  induction 1 as [|f fs Hf Hfs IH]; intros b c fuel Hw Hfuel.
  - destruct b; [|discriminate]. destruct fuel; [cbn [length] in Hfuel; lia|]. reflexivity.
  - rewrite wire_cons in Hw. cbn [complete].
    pose proof (encode_nonempty f Hf) as H12.
    destruct (N.leb_spec (nlen (fst (encode f))) (nlen b)) as [Hle|Hgt].
    + destruct (app_prefix_split _ _ _ _ Hw) as (z & -> & Hw'); [unfold nlen in Hle; lia|].
      destruct fuel as [|fuel]; [lia|]. cbn [drain].
      destruct (roundtrip f z Hf) as [_ Hd]. rewrite Hd.
      rewrite app_length in Hfuel. unfold nlen in H12.
      rewrite (IH z c fuel Hw') by lia.
      rewrite nlen_app.
      replace (nlen (fst (encode f)) + nlen z - nlen (fst (encode f))) with (nlen z) by lia.
      cbn [map]. rewrite wire_cons, app_length.
      rewrite (skipn_app (length (fst (encode f)) + _)).
      rewrite (skipn_all2 (fst (encode f))) by lia. cbn [app]. f_equal. f_equal. f_equal. lia.
    + symmetry in Hw.
      destruct (app_prefix_split _ _ _ _ Hw) as (z & Hz & _); [unfold nlen in Hgt; lia|].
      destruct fuel as [|fuel]; [lia|]. cbn [drain].
      rewrite (decode_incomplete f b z Hf Hz).
      * cbn [map wire flat_map length skipn]. reflexivity.
      * intros ->. rewrite app_nil_r in Hz. rewrite Hz in Hgt. lia.
Qed.

Lemma receive_prefix reads : forall fs buf c,
  Forall fits fs -> wire fs = buf ++ concat reads ++ c ->
  complete (nlen buf) fs = [] ->
  receive buf reads =
    (map public (complete (nlen (buf ++ concat reads)) fs),
     skipn (length (wire (complete (nlen (buf ++ concat reads)) fs))) (buf ++ concat reads),
     StopWait).
Proof.
  induction reads as [|r rs IH]; intros fs buf c Hf Hw Hc.
  - cbn [receive concat]. rewrite app_nil_r, Hc. reflexivity.
  - cbn [receive concat]. cbn [concat] in Hw.
    rewrite <- app_assoc in Hw. rewrite (app_assoc buf r) in Hw.
    rewrite (drain_prefix fs Hf (buf ++ r) (concat rs ++ c)) by (try exact Hw; lia).
    destruct (complete_split fs (nlen (buf ++ r))) as (fs2 & H1 & H2 & H3).
    set (done := complete (nlen (buf ++ r)) fs) in *.
    assert (Hlen : (length (wire done) <= length (buf ++ r))%nat) by (unfold nlen in H2; lia).
    assert (Hw0 : wire done ++ wire fs2 = (buf ++ r) ++ concat rs ++ c).
    { rewrite <- wire_app, <- H1. exact Hw. }
    destruct (app_prefix_split _ _ _ _ Hw0 Hlen) as (z & Hz & Hw2).
    rewrite Hz, skipn_app_exact.
    assert (Hf2 : Forall fits fs2).
    { rewrite H1 in Hf. apply Forall_app in Hf. exact (proj2 Hf). }
    rewrite (IH fs2 z c Hf2 Hw2).
    + rewrite (app_assoc buf r), Hz, <- app_assoc.
      rewrite Hz in H3. rewrite (H3 (nlen (wire done ++ z ++ concat rs)))
        by (rewrite !nlen_app; lia).
      replace (nlen (wire done ++ z ++ concat rs) - nlen (wire done))
        with (nlen (z ++ concat rs)) by (rewrite !nlen_app; lia).
      rewrite map_app, wire_app, app_length.
      f_equal. f_equal.
      rewrite (skipn_app (length (wire done) + _)).
      rewrite (skipn_all2 (wire done)) by lia. cbn [app]. f_equal. lia.
    + assert (H4 := H3 (nlen (buf ++ r)) (N.le_refl _)).
      fold done in H4. rewrite <- (app_nil_r done) in H4 at 1.
      apply app_inv_head in H4. rewrite Hz in H4 at 1.
      rewrite nlen_app in H4.
      replace (nlen (wire done) + nlen z - nlen (wire done)) with (nlen z) in H4 by lia.
      symmetry; exact H4.
Qed.

Lemma complete_nil fs : Forall fits fs -> complete 0 fs = [].
Proof.
  destruct 1 as [|f fs Hf Hfs]; [reflexivity|].
  cbn [complete]. pose proof (encode_nonempty f Hf).
  replace (nlen (fst (encode f)) <=? 0) with false by lia. reflexivity.
Qed.

Lemma complete_all fs : complete (nlen (wire fs)) fs = fs.
Proof.
  induction fs as [|f fs IH]; [reflexivity|].
  cbn [complete]. rewrite wire_cons, nlen_app.
  replace (nlen (fst (encode f)) <=? nlen (fst (encode f)) + nlen (wire fs)) with true by lia.
  f_equal.
  replace (nlen (fst (encode f)) + nlen (wire fs) - nlen (fst (encode f)))
    with (nlen (wire fs)) by lia.
  exact IH.
Qed.

Lemma stream_any_cut fs reads more :
  Forall fits fs -> wire fs = concat reads ++ more ->
  receive [] reads =
    (map public (complete (nlen (concat reads)) fs),
     skipn (length (wire (complete (nlen (concat reads)) fs))) (concat reads), StopWait).
Proof.
  intros Hf Hw. apply (receive_prefix reads fs [] more Hf Hw).
  change (nlen []) with 0. apply complete_nil; exact Hf.
Qed.

Lemma stream_all fs reads :
  Forall fits fs -> concat reads = wire fs ->
  receive [] reads = (map public fs, [], StopWait).
Proof.
  intros Hf Hw. rewrite (stream_any_cut fs reads []); [|exact Hf|rewrite app_nil_r; congruence].
  rewrite Hw, complete_all, skipn_all. reflexivity.
Qed.
