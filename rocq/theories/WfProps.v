From Coq Require Import String.
From Verif Require Import Base Text ProtModel ProtSpec ProtProofs ProtProps WfSpec WfProofs.
Open Scope N_scope.

(* C183: every message that the format can carry is put on the wire in that format, byte by
   byte *)
Theorem C183_sent : forall f, fits f -> encode f = (frame_wire f, None).
Proof. exact sent_ok. Qed.
(* C183: the receiver takes a frame off its buffer exactly when the buffer starts with one,
   and it is the message written there *)
Theorem C183_read : forall b f rest, bytes_ok b = true -> decode_frame b = DFrame f rest <-> starts_with b f rest.
Proof. exact read_ok. Qed.
(* C183: the flags of a frame mean nothing: whatever they are, the message is the same *)
Theorem C183_flags : forall len k fl fl' num sid more f rest, len < 2 ^ 24 -> num < 2 ^ 24 -> sid < 2 ^ 32 -> k < 256 -> fl < 256 -> fl' < 256 -> bytes_ok more = true ->
  decode_frame (big 3 len ++ [k; fl] ++ big 3 num ++ big 4 sid ++ more) = DFrame f rest ->
  decode_frame (big 3 len ++ [k; fl'] ++ big 3 num ++ big 4 sid ++ more) = DFrame f rest.
Proof.
  intros len k fl fl' num sid more f rest H1 H2 H3 Hk F F' B D.
  assert (G : forall n v, bytes_ok (big n v) = true).
  { intros n v. induction n as [|n IH]; [reflexivity|]. cbn [big]. unfold bytes_ok. cbn [forallb]. fold (bytes_ok (big n v)). rewrite IH. unfold byte_ok.
    pose proof (N.mod_lt (v / 256 ^ N.of_nat n) 256 ltac:(discriminate)). lia. }
  assert (A : forall x, x < 256 -> bytes_ok (big 3 len ++ [k; x] ++ big 3 num ++ big 4 sid ++ more) = true).
  { intros x Hx. rewrite !bytes_ok_app, !G, B. unfold bytes_ok, byte_ok. cbn [forallb]. lia. }
  apply C183_read in D; [|apply A; exact F]. apply C183_read; [apply A; exact F'|].
  destruct D as (len' & x & num' & sid' & w & mo & E & L1 & L2 & L3 & R).
  exists len', fl', num', sid', w, mo. split; [|auto].
  rewrite !big3, !big4 in *. unfold be24, be32 in *. cbn [app] in *. injection E as E1 E2 E3 -> -> E5 E6 E7 E8 E9 E10 E11 E12. rewrite E1, E2, E3, E5, E6, E7, E8, E9, E10, E11, E12. reflexivity.
Qed.
(* Full statement: the receiver takes nothing for a message but what the format says.
   False of the code: the content may go beyond the announced length, into the frames that
   follow, and all codes from 4 on stand for the replacement of a header. *)
Theorem C183_strict_refuted :
  (forall s n t, wire_sock s -> n <= 255 -> bytes_ok t = true -> n <= nlen t -> is_string (firstn (N.to_nat n) t) ->
     decode_frame (big 3 1 ++ [2; 0] ++ big 3 (s mod 2 ^ 32) ++ big 4 (s / 2 ^ 32) ++ n :: t) =
     DFrame (FClose s (firstn (N.to_nat n) t)) t) /\
  (forall c k v, 4 <= c -> text_for (counted k) k -> text_for (counted v) v -> rule_for ([0; c] ++ counted k ++ counted v) (HRule HReplace false k v)).
Proof.
  split.
  - intros s n t W Hr B L Ht. assert (W' := W). apply wire_sock_bounds in W' as [Wa Wb]. change (2 ^ 32) with 4294967296.
    assert (G : forall i x, bytes_ok (big i x) = true).
    { intros i x. induction i as [|i IH]; [reflexivity|]. cbn [big]. unfold bytes_ok. cbn [forallb]. fold (bytes_ok (big i x)). rewrite IH. unfold byte_ok.
      pose proof (N.mod_lt (x / 256 ^ N.of_nat i) 256 ltac:(discriminate)). lia. }
    apply C183_read.
    { rewrite !bytes_ok_app, !G. unfold bytes_ok. cbn [forallb]. fold (bytes_ok t). rewrite B. unfold byte_ok. lia. }
    exists 1, 0, (s mod 4294967296), (s / 4294967296), (counted (firstn (N.to_nat n) t)), (skipn (N.to_nat n) t).
    assert (X : nlen (firstn (N.to_nat n) t) = n) by (unfold nlen in *; rewrite firstn_length; lia).
    unfold counted. rewrite X. cbn [code app]. rewrite firstn_skipn. split; [reflexivity|]. split; [reflexivity|]. split; [exact Wa|]. split; [exact Wb|].
    split; [exists (firstn (N.to_nat n) t); unfold counted; rewrite X; split; [reflexivity|]; split; [exact Hr|]; symmetry; apply lossy_string; exact Ht|].
    split; [cbn [frame_sock]; change (2 ^ 32) with 4294967296; rewrite (N.div_mod s 4294967296) at 1 by discriminate; lia|].
    split; [rewrite nlen_cons; lia|]. reflexivity.
  - intros c k v H K V. exists 0, c, (counted k), (counted v). split; [reflexivity|]. cbn [hr_proxy hr_oper hr_key hr_val change_for]. split; [split; [discriminate|lia]|]. split; [lia|]. auto.
Qed.

Definition c183_map : mapping :=
  Mapping (txt "web") (txt "http") (Some 7) (txt "a.b") [HRule HReplace true (txt "k") (txt "v"); HRule HAdd false (txt "x") []].
Example C183_case :
  fits (FMapping (2 * 2 ^ 32 + 5) [c183_map]) /\
  frame_wire (FMapping (2 * 2 ^ 32 + 5) [c183_map]) =
    [0; 0; 28; 3; 0; 0; 0; 5; 0; 0; 0; 2; 0; 1; 3; 119; 101; 98; 4; 104; 116; 116; 112; 3; 97; 46; 98; 0; 2;
     1; 4; 1; 107; 1; 118; 0; 1; 1; 120; 0] /\
  decode_frame ([0; 0; 2; 4; 9; 0; 0; 0; 0; 0; 0; 0; 1; 117; 1; 112]) = DFrame (FToken [117] [112]) [1; 112] /\
  starts_with [0; 0; 2; 4; 9; 0; 0; 0; 0; 0; 0; 0; 1; 117; 1; 112] (FToken [117] [112]) [1; 112].
Proof.
  assert (Q : forall s, forallb (fun x => x <? 128) s = true -> nlen s <= 255 -> short_string s).
  { intros s A L. split; [apply is_string_ascii; exact A|exact L]. }
  split; [|split; [vm_compute; reflexivity|split; [vm_compute; reflexivity|apply C183_read; vm_compute; reflexivity]]].
  split; [exists 2, 5; repeat split; reflexivity|]. split; [reflexivity|]. split; [|reflexivity]. constructor; [|constructor].
  split; [apply Q; [reflexivity|vm_compute; discriminate]|]. split; [apply Q; [reflexivity|vm_compute; discriminate]|]. split; [apply Q; [reflexivity|vm_compute; discriminate]|].
  split; [reflexivity|]. cbn [c183_map m_headers]. apply Forall_cons; [|apply Forall_cons; [|apply Forall_nil]]; unfold rule_fits; cbn [hr_key hr_val]; split; (apply Q; [reflexivity|vm_compute; discriminate]).
Qed.
Print Assumptions C183_sent.
Print Assumptions C183_read.
Print Assumptions C183_flags.
Print Assumptions C183_strict_refuted.
