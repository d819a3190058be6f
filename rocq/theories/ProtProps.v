(* Property theorems for the tunnel protocol: C01-C06. *)
From Coq Require Import String.
From Verif Require Import Base Text ProtModel ProtSpec ProtProofs ProtStream ProtRobust
  IdModel IdProofs.
Open Scope N_scope.

(* C01: a frame within the wire limits is encoded without error and decoded to
   the same frame, whatever follows it in the buffer, which is left untouched. *)
Theorem C01_frame_roundtrip : forall f rest, fits f ->
  snd (encode f) = None /\ decode_frame (fst (encode f) ++ rest) = DFrame (public f) rest.
Proof. exact roundtrip. Qed.
Example C01_nonvacuous :
  fits (FMapping (7 * 2 ^ 32 + 5)
    [Mapping (txt "web") (txt "http") (Some 1) (txt "a.example")
       [HRule HReplace true (txt "host") (txt "inner")]]) /\
  fits (FCreate 3 (Some (txt "a.example"))) /\ fits (FClose 3 []) /\
  fits (FData 3 [0; 255; 7]) /\ fits (FToken (txt "u") (txt "p")).
Proof.
  assert (A : forall b, forallb (fun c => c <? 0x80) b = true -> nlen b <= 255 -> short_string b).
  { intros b H1 H2. split; [apply is_string_ascii; exact H1|exact H2]. }
  assert (W : wire_sock 3) by (exists 0, 3; repeat split; lia).
  assert (A' : forall b, forallb (fun c => c <? 0x80) b && (nlen b <=? 255) = true -> short_string b).
  { intros b H. apply andb_prop in H as [H1 H2]. apply A; [exact H1|lia]. }
  assert (W7 : wire_sock (7 * 2 ^ 32 + 5)) by (exists 7, 5; repeat split; lia).
  split; [|split; [|split; [|split]]].
  - split; [exact W7|]. split; [reflexivity|]. split; [|reflexivity].
    constructor; [|constructor].
    split; [apply A'; reflexivity|]. split; [apply A'; reflexivity|].
    split; [apply A'; reflexivity|]. split; [reflexivity|].
    constructor; [split; apply A'; reflexivity|constructor].
  - split; [exact W|]. split; [discriminate|apply A'; reflexivity].
  - split; [exact W|]. apply A'; reflexivity.
  - split; [exact W|]. split; reflexivity.
  - split; apply A'; reflexivity.
Qed.
Print Assumptions C01_frame_roundtrip.

(* C02: feed any reads whose concatenation is an initial part of the wire form
   of frames fs; exactly the frames wholly contained in it have been obtained,
   and the rest of the bytes is kept. *)
Theorem C02_segmentation : forall fs reads more,
  Forall fits fs -> wire fs = concat reads ++ more ->
  receive [] reads =
    (map public (complete (nlen (concat reads)) fs),
     skipn (length (wire (complete (nlen (concat reads)) fs))) (concat reads), StopWait).
Proof. exact stream_any_cut. Qed.
Theorem C02_segmentation_all : forall fs reads,
  Forall fits fs -> concat reads = wire fs ->
  receive [] reads = (map public fs, [], StopWait).
Proof. exact stream_all. Qed.
Example C02_nonvacuous :
  Forall fits [FData 3 [1; 2]; FClose 3 []] /\
  wire [FData 3 [1; 2]; FClose 3 []] =
    concat [[0; 0]; []; [2; 0; 0; 0; 0; 3; 0; 0; 0; 0; 1; 2; 0]; [0; 1]]
    ++ [2; 0; 0; 0; 3; 0; 0; 0; 0; 0].
Proof.
  split; [|reflexivity].
  assert (W : wire_sock 3) by (exists 0, 3; repeat split; lia).
  constructor; [|constructor; [|constructor]].
  - split; [exact W|]. split; reflexivity.
  - split; [exact W|]. split; [apply is_string_nil|]. discriminate.
Qed.
Print Assumptions C02_segmentation.
Print Assumptions C02_segmentation_all.

(* C03 full statement: the frame depends only on the announced bytes.  False:
   a close frame announcing one payload byte whose inner string length is 2
   takes its reason from the bytes of the next frame. *)
Theorem C03_isolation_refuted : exists b c1 c2 f1 f2,
  announced b = Some (nlen b) /\ bytes_ok (b ++ c1 ++ c2) = true /\
  decode_frame (b ++ c1) = DFrame f1 c1 /\ decode_frame (b ++ c2) = DFrame f2 c2 /\ f1 <> f2.
Proof.
  exists [0;0;1; 2; 0; 0;0;3; 0;0;0;0; 2], [65; 66], [67; 68], (FClose 3 [65; 66]), (FClose 3 [67; 68]).
  repeat split; try reflexivity. discriminate.
Qed.
(* What does hold, for every byte string: a frame that could be decoded is not
   changed by bytes that arrive after it ... *)
Theorem C03_isolation_partial : forall b c f r,
  decode_frame b = DFrame f r -> decode_frame (b ++ c) = DFrame f (r ++ c).
Proof. exact decode_frame_app. Qed.
(* ... and a complete frame, good or bad, always consumes exactly its announced
   bytes, so the framing of what follows is never lost. *)
Theorem C03_framing_partial : forall b n,
  announced b = Some n -> n <= nlen b ->
  decode_frame b = DPanic \/
  (exists f, decode_frame b = DFrame f (skipn (N.to_nat n) b)) \/
  (exists e, decode_frame b = DFail e (skipn (N.to_nat n) b)).
Proof. exact decode_frame_rest. Qed.
(* Nothing is decoded before the announced bytes are all there. *)
Theorem C03_wait : forall b, decode_frame b = DWait <->
  match announced b with Some n => nlen b < n | None => True end.
Proof. exact decode_frame_wait. Qed.
Example C03_nonvacuous :
  decode_frame [0;0;2; 0; 0; 0;0;3; 0;0;0;0; 8;9; 7] = DFrame (FData 3 [8;9]) [7] /\
  announced [0;0;2; 0; 0; 0;0;3; 0;0;0;0; 8;9; 7] = Some 14.
Proof. split; reflexivity. Qed.
Print Assumptions C03_isolation_refuted.
Print Assumptions C03_isolation_partial.
Print Assumptions C03_framing_partial.
Print Assumptions C03_wait.

(* C04 full statement: no bytes make the decoder panic.  False: *)
Theorem C04_decoder_total_refuted : exists b, bytes_ok b = true /\ decode_frame b = DPanic.
Proof. exists [0;0;0; 5; 0; 0;0;3; 0;0;0;0]. split; reflexivity. Qed.
(* The exact set of buffers that panic: a complete frame of unknown kind, or a
   create frame without payload that ends the buffer. *)
Theorem C04_decoder_total_partial : forall b,
  decode_frame b = DPanic <->
  exists n, announced b = Some n /\ n <= nlen b /\
    (5 <= nth 3 b 0 \/ (nth 3 b 0 = 1 /\ nlen b = 12)).
Proof. exact decode_panic_iff. Qed.
Print Assumptions C04_decoder_total_refuted.
Example C04_cases :
  decode_frame [0; 0; 1; 5; 0; 0; 0; 3; 0; 0; 0; 0; 7] = DPanic /\ announced [0; 0; 1; 5; 0; 0; 0; 3; 0; 0; 0; 0; 7] = Some 13 /\
  decode_frame [0; 0; 0; 1; 0; 0; 0; 3; 0; 0; 0; 0] = DPanic /\ announced [0; 0; 0; 1; 0; 0; 0; 3; 0; 0; 0; 0] = Some 12 /\
  decode_frame [0; 0; 1; 0; 0; 0; 0; 3; 0; 0; 0; 0; 7] = DFrame (FData 3 [7]) [] /\ decode_frame [0; 0; 1; 5] = DWait.
Proof. vm_compute. repeat split; reflexivity. Qed.
Print Assumptions C04_decoder_total_partial.

(* C05 full statement: what does not fit is refused and leaves no bytes.  False:
   a 256-byte domain is sent as "no domain" ... *)
Theorem C05_oversize_refuted_domain : forall s d rest,
  wire_sock s -> nlen d = 256 ->
  snd (encode (FCreate s (Some d))) = None /\
  decode_frame (fst (encode (FCreate s (Some d))) ++ rest) = DFrame (FCreate s None) rest.
Proof. intros s d rest Hs Hd. split; [reflexivity|exact (create_256 s d rest Hs Hd)]. Qed.
Example C05_domain_nonvacuous : wire_sock 3 /\ nlen (repeat 97 256) = 256.
Proof. split; [exists 0, 3; repeat split; lia|reflexivity]. Qed.
(* ... a 16 MiB payload is announced as empty, so its bytes are taken for the
   following frames ... *)
Theorem C05_oversize_refuted_data : forall s d rest,
  wire_sock s -> nlen d = 2 ^ 24 ->
  snd (encode (FData s d)) = None /\
  decode_frame (fst (encode (FData s d)) ++ rest) = DFrame (FData s []) (d ++ rest).
Proof. intros s d rest Hs Hd. split; [reflexivity|exact (data_16MiB s d rest Hs Hd)]. Qed.
(* ... and a close whose reason is too long reports an error but leaves a
   12-byte header behind. *)
Theorem C05_oversize_refuted_close : forall s r, 255 < nlen r ->
  snd (encode (FClose s r)) = Some TooShort /\ nlen (fst (encode (FClose s r))) = 12.
Proof.
  intros s r H. cbn [encode]. unfold close_encode, write_short_string. replace (255 <? nlen r) with true by lia. split; reflexivity.
Qed.
Example C05_close_case : wire_sock 3 /\ is_string (repeat 97 256) /\ 255 < nlen (repeat 97 256).
Proof. split; [exists 0, 3; repeat split; lia|]. split; [apply is_string_ascii; reflexivity|reflexivity]. Qed.
(* ... and of a list of mappings too long for its two-byte count only the first
   (length modulo 65536) arrive, without an error on either side. *)
Theorem C05_oversize_refuted_list : forall s ms rest,
  wire_sock s -> Forall mapping_fits ms -> mappings_size ms < 2 ^ 24 ->
  snd (encode (FMapping s ms)) = None /\
  decode_frame (fst (encode (FMapping s ms)) ++ rest) =
    DFrame (FMapping s (map public_mapping (firstn (N.to_nat (nlen ms mod 65536)) ms))) rest.
Proof. exact mapping_wraps. Qed.
Corollary C05_oversize_refuted_list_case : exists ms, nlen ms = 65537 /\ forall rest,
  snd (encode (FMapping 0 ms)) = None /\
  decode_frame (fst (encode (FMapping 0 ms)) ++ rest) = DFrame (FMapping 0 [Mapping [97] [] None [] []]) rest.
Proof.
  exists (repeat (Mapping [97] [] (Some 1) [] []) (N.to_nat 65537)).
  assert (L : nlen (repeat (Mapping [97] [] (Some 1) [] []) (N.to_nat 65537)) = 65537).
  { unfold nlen. rewrite repeat_length. lia. }
  split; [exact L|]. intros rest.
  assert (F : mapping_fits (Mapping [97] [] (Some 1) [] [])).
  { unfold mapping_fits, short_string. cbn [m_name m_mode m_domain m_headers].
    repeat split; try (apply is_string_ascii; reflexivity); try (unfold nlen; cbn; lia). constructor. }
  assert (Z : forall n, fold_right (fun m n => mapping_size m + n) 0 (repeat (Mapping [97] [] (Some 1) [] []) n) = 6 * N.of_nat n).
  { intros n. induction n as [|n IH]; [reflexivity|]. cbn [repeat fold_right]. rewrite IH.
    unfold mapping_size, nlen. cbn [m_name m_mode m_domain m_headers length fold_right]. lia. }
  destruct (mapping_wraps 0 (repeat (Mapping [97] [] (Some 1) [] []) (N.to_nat 65537)) rest) as [A B].
  - exists 0, 0. repeat split.
  - apply Forall_forall. intros m Hi. apply repeat_spec in Hi. subst m. exact F.
  - unfold mappings_size. rewrite Z. change (2 ^ 24) with 16777216. lia.
  - split; [exact A|]. rewrite B, L. change (N.to_nat (65537 mod 65536)) with 1%nat.
    replace (N.to_nat 65537) with (S (N.to_nat 65536)) by lia. reflexivity.
Qed.
(* Proved part: every overlong string of a close, token or mapping frame is
   reported, and for mappings nothing is written. *)
Theorem C05_oversize_partial :
  (forall s r, 255 < nlen r -> snd (encode (FClose s r)) = Some TooShort) /\
  (forall u p, 255 < nlen u \/ 255 < nlen p -> snd (encode (FToken u p)) = Some TooShort) /\
  (forall s ms, existsb mapping_long ms = true -> encode (FMapping s ms) = ([], Some TooShort)) /\
  (forall s ms e, snd (encode (FMapping s ms)) = Some e -> fst (encode (FMapping s ms)) = []).
Proof.
  exact (conj close_encode_err (conj token_encode_err
        (conj mapping_encode_err mapping_encode_error_clean))).
Qed.
Print Assumptions C05_oversize_refuted_domain.
Print Assumptions C05_oversize_refuted_data.
Print Assumptions C05_oversize_refuted_close.
Print Assumptions C05_oversize_refuted_list.
Print Assumptions C05_oversize_refuted_list_case.
Print Assumptions C05_oversize_partial.

(* C06: up to 2^31 allocations per end, all ids of both ends are distinct. *)
Theorem C06_ids_distinct : forall sid1 sid2 n m,
  N.of_nat n <= 2 ^ 31 -> N.of_nat m <= 2 ^ 31 ->
  NoDup (allocate sid1 client_first n ++ allocate sid2 server_first m).
Proof. exact ids_ok. Qed.
(* The peer sees the same id: false, the wire keeps 24 bits, so the id of the
   (2^23+1)-th stream is read as that of the first one, and so on. *)
Theorem C06_ids_on_wire_refuted : forall sid n k d rest, sid < 2 ^ 32 -> n < 2 ^ 24 -> n + k * 2 ^ 24 < 2 ^ 32 ->
  bytes_ok d = true -> nlen d < 2 ^ 24 ->
  decode_frame (fst (encode (FData (sid * 2 ^ 32 + (n + k * 2 ^ 24)) d)) ++ rest) = DFrame (FData (sid * 2 ^ 32 + n) d) rest.
Proof.
  intros sid n k d rest Hs Hn Hk Hd Hl.
  assert (F : fits (FData (sid * 2 ^ 32 + n) d)) by (split; [exists sid, n; auto|split; assumption]).
  change (FData (sid * 2 ^ 32 + n) d) with (public (FData (sid * 2 ^ 32 + n) d)). rewrite <- (proj2 (C01_frame_roundtrip (FData (sid * 2 ^ 32 + n) d) rest F)). f_equal. f_equal.
  cbn [encode]. unfold data_encode. cbn [fst]. f_equal. unfold header_encode, be24, be32. cbn [h_len h_kind h_flag h_sock].
  change (2 ^ 32) with 4294967296 in *. change (2 ^ 24) with 16777216 in *.
  assert (A : (sid * 4294967296 + (n + k * 16777216)) / 4294967296 = (sid * 4294967296 + n) / 4294967296) by lia.
  assert (B : (sid * 4294967296 + (n + k * 16777216)) mod 4294967296 = n + k * 16777216) by lia.
  assert (C : (sid * 4294967296 + n) mod 4294967296 = n) by lia. rewrite A, B, C.
  replace ((n + k * 16777216) / 65536 mod 256) with (n / 65536 mod 256) by lia.
  replace ((n + k * 16777216) / 256 mod 256) with (n / 256 mod 256) by lia.
  replace ((n + k * 16777216) mod 256) with (n mod 256) by lia. reflexivity.
Qed.
Example C06_wire_case : nth (N.to_nat 0) (allocate 0 client_first 1) 0 = 1 /\ client_first + 1 * 2 ^ 24 < 2 ^ 32.
Proof. split; reflexivity. Qed.
(* Proved part: the first 2^23 - 1 ids of each end do fit the wire form (and by
   C01 then reach the peer unchanged). *)
Theorem C06_ids_on_wire_partial : forall sid first n id d rest,
  first = client_first \/ first = server_first -> sid < 2 ^ 32 -> N.of_nat n < 2 ^ 23 ->
  bytes_ok d = true -> nlen d < 2 ^ 24 ->
  In id (allocate sid first n) ->
  decode_frame (fst (encode (FData id d)) ++ rest) = DFrame (FData id d) rest.
Proof.
  intros sid first n id d rest Hf Hs Hn Hd Hl Hin.
  refine (proj2 (C01_frame_roundtrip (FData id d) rest _)).
  split; [|split; assumption].
  refine (allocate_wire sid first n id _ Hs Hn Hin).
  destruct Hf as [->| ->]; discriminate.
Qed.
Example C06_nonvacuous :
  allocate 0 client_first 3 = [1; 3; 5] /\ allocate 1 server_first 2 = [4294967298; 4294967300] /\
  N.of_nat 3 <= 2 ^ 31.
Proof. repeat split; discriminate. Qed.
Print Assumptions C06_ids_distinct.
Print Assumptions C06_ids_on_wire_refuted.
Print Assumptions C06_ids_on_wire_partial.
