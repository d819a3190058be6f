(* The format of the tunnel on the wire, written down without the encoder or decoder. *)
From Verif Require Import Base Text ProtModel.
Open Scope N_scope.

(* the number v in k bytes, the most significant first *)
Fixpoint big (k : nat) (v : N) : bytes :=
  match k with O => [] | S k' => v / 256 ^ N.of_nat k' mod 256 :: big k' v end.
(* a text: one byte for its length, then its bytes *)
Definition counted (s : bytes) : bytes := nlen s :: s.

(* the code of each message *)
Definition code (f : frame) : N :=
  match f with FData _ _ => 0 | FCreate _ _ => 1 | FClose _ _ => 2 | FMapping _ _ => 3 | FToken _ _ => 4 end.
(* the code of each way of changing a header *)
Definition change_code (o : hoper) : N := match o with HAdd => 1 | HDel => 2 | HDefault => 3 | HReplace => 4 end.
(* whether the change concerns the way to the backend, what it is, the header, the value *)
Definition rule_wire (r : hrule) : bytes :=
  [if hr_proxy r then 1 else 0; change_code (hr_oper r)] ++ counted (hr_key r) ++ counted (hr_val r).
(* the local address of a mapping is not told *)
Definition mapping_wire (m : mapping) : bytes :=
  counted (m_name m) ++ counted (m_mode m) ++ counted (m_domain m) ++ big 2 (nlen (m_headers m)) ++ flat_map rule_wire (m_headers m).
Definition content_wire (f : frame) : bytes :=
  match f with
  | FData _ d => d
  | FCreate _ d => counted (match d with Some n => n | None => [] end)
  | FClose _ r => counted r
  | FMapping _ ms => big 2 (nlen ms) ++ flat_map mapping_wire ms
  | FToken u p => counted u ++ counted p
  end.
(* three bytes for the length of the content, the code, no flags, three bytes for the
   stream and four for the server it belongs to, the content *)
Definition frame_wire (f : frame) : bytes :=
  big 3 (nlen (content_wire f)) ++ [code f; 0] ++ big 3 (frame_sock f mod 2 ^ 32) ++ big 4 (frame_sock f / 2 ^ 32) ++ content_wire f.

(* What the receiver takes for what.  w is a text that is read as s; what is not UTF-8 in it
   is replaced (Text.from_utf8_lossy). *)
Definition text_for (w s : bytes) : Prop := exists t, w = counted t /\ nlen t <= 255 /\ s = from_utf8_lossy t.
Inductive many {A} (one : bytes -> A -> Prop) : bytes -> list A -> Prop :=
| many_none : many one [] []
| many_more w x ws xs : one w x -> many one ws xs -> many one (w ++ ws) (x :: xs).
(* every code but three stands for a replacement *)
Definition change_for (c : N) (o : hoper) : Prop :=
  match o with HReplace => c <> 1 /\ c <> 2 /\ c <> 3 | _ => c = change_code o end.
Definition rule_for (w : bytes) (r : hrule) : Prop :=
  exists p c wk wv, w = p :: c :: wk ++ wv /\ (hr_proxy r = true <-> p <> 0) /\ change_for c (hr_oper r) /\
  text_for wk (hr_key r) /\ text_for wv (hr_val r).
Definition mapping_for (w : bytes) (m : mapping) : Prop :=
  exists wn wm wd wh, w = wn ++ wm ++ wd ++ big 2 (nlen (m_headers m)) ++ wh /\ nlen (m_headers m) < 2 ^ 16 /\
  text_for wn (m_name m) /\ text_for wm (m_mode m) /\ text_for wd (m_domain m) /\ many rule_for wh (m_headers m) /\ m_local m = None.
Definition content_for (len : N) (w : bytes) (f : frame) : Prop :=
  match f with
  | FData _ d => w = d /\ nlen d = len
  | FCreate _ None => w = [0]
  | FCreate _ (Some n) => w <> [0] /\ text_for w n
  | FClose _ r => text_for w r
  | FMapping _ ms => nlen ms < 2 ^ 16 /\ exists wm, w = big 2 (nlen ms) ++ wm /\ many mapping_for wm ms
  | FToken u p => exists wu wp, w = wu ++ wp /\ text_for wu u /\ text_for wp p
  end.
(* the buffer starts with a frame that is f: a header with the length len and any flags,
   and after it something that is read as f.  The next frame starts len bytes after the
   header, however long that was; a token belongs to no stream *)
Definition starts_with (b : bytes) (f : frame) (rest : bytes) : Prop :=
  exists len flags num sid w more,
  b = big 3 len ++ [code f; flags] ++ big 3 num ++ big 4 sid ++ w ++ more /\
  len < 2 ^ 24 /\ num < 2 ^ 24 /\ sid < 2 ^ 32 /\ content_for len w f /\
  frame_sock f = (match f with FToken _ _ => 0 | _ => sid * 2 ^ 32 + num end) /\
  len <= nlen (w ++ more) /\ rest = skipn (N.to_nat len) (w ++ more).
