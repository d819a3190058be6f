(* Rust strings.  A String is a sequence of Unicode scalar values stored as
   UTF-8; String::from_utf8_lossy is what /repo uses on bytes that come from
   the network (src/prot/mod.rs:46, src/prot/create.rs:49).  Both are modelled
   executably here; neither is part of /repo (trusted base: that these are the
   std semantics). *)
From Verif Require Import Base.
From Coq Require Import String Ascii.
Open Scope N_scope.

(* Literals: "abc" as the list of its character codes. *)
Fixpoint txt (s : string) : list N :=
  match s with
  | EmptyString => []
  | String a r => N_of_ascii a :: txt r
  end.

(* Unicode scalar values: char in Rust. *)
Definition scalar (c : N) : bool := (c <? 0xD800) || ((0xE000 <=? c) && (c <? 0x110000)).

(* UTF-8 encoding of one char (char::encode_utf8). *)
Definition utf8_char (c : N) : bytes :=
  if c <? 0x80 then [c]
  else if c <? 0x800 then [0xC0 + c / 64; 0x80 + c mod 64]
  else if c <? 0x10000 then [0xE0 + c / 4096; 0x80 + c / 64 mod 64; 0x80 + c mod 64]
  else [0xF0 + c / 262144; 0x80 + c / 4096 mod 64; 0x80 + c / 64 mod 64; 0x80 + c mod 64].

Definition utf8 (s : list N) : bytes := flat_map utf8_char s.

(* The byte strings that can sit inside a Rust String. *)
Definition is_string (b : bytes) : Prop := exists s, forallb scalar s = true /\ b = utf8 s.

(* U+FFFD REPLACEMENT CHARACTER in UTF-8. *)
Definition replacement : bytes := [0xEF; 0xBF; 0xBD].

Definition cont (b : N) : bool := (0x80 <=? b) && (b <? 0xC0).
(* Allowed second byte after a given lead byte (core::str::lossy Utf8Chunks). *)
Definition second3 (a b : N) : bool :=
  if a =? 0xE0 then (0xA0 <=? b) && (b <? 0xC0)
  else if a =? 0xED then (0x80 <=? b) && (b <? 0xA0)
  else cont b.
Definition second4 (a b : N) : bool :=
  if a =? 0xF0 then (0x90 <=? b) && (b <? 0xC0)
  else if a =? 0xF4 then (0x80 <=? b) && (b <? 0x90)
  else cont b.

(* String::from_utf8_lossy: every maximal ill-formed prefix becomes one
   U+FFFD, everything else is kept. *)
Fixpoint from_utf8_lossy (l : bytes) : bytes :=
  match l with
  | [] => []
  | a :: l1 =>
    if a <? 0x80 then a :: from_utf8_lossy l1
    else if (0xC2 <=? a) && (a <? 0xE0) then
      match l1 with
      | b :: l2 => if cont b then a :: b :: from_utf8_lossy l2
                   else replacement ++ from_utf8_lossy l1
      | [] => replacement
      end
    else if (0xE0 <=? a) && (a <? 0xF0) then
      match l1 with
      | b :: l2 =>
        if second3 a b then
          match l2 with
          | c :: l3 => if cont c then a :: b :: c :: from_utf8_lossy l3
                       else replacement ++ from_utf8_lossy l2
          | [] => replacement
          end
        else replacement ++ from_utf8_lossy l1
      | [] => replacement
      end
    else if (0xF0 <=? a) && (a <? 0xF5) then
      match l1 with
      | b :: l2 =>
        if second4 a b then
          match l2 with
          | c :: l3 =>
            if cont c then
              match l3 with
              | d :: l4 => if cont d then a :: b :: c :: d :: from_utf8_lossy l4
                           else replacement ++ from_utf8_lossy l3
              | [] => replacement
              end
            else replacement ++ from_utf8_lossy l2
          | [] => replacement
          end
        else replacement ++ from_utf8_lossy l1
      | [] => replacement
      end
    else replacement ++ from_utf8_lossy l1
  end.

Lemma utf8_app a b : utf8 (a ++ b) = utf8 a ++ utf8 b.
Proof. unfold utf8; apply flat_map_app. Qed.

Ltac nbool :=
  repeat match goal with
  | H : andb _ _ = true |- _ => apply andb_true_iff in H; destruct H
  | H : orb _ _ = true |- _ => apply orb_true_iff in H
  | H : (_ <? _) = true |- _ => apply N.ltb_lt in H
  | H : (_ <? _) = false |- _ => apply N.ltb_ge in H
  | H : (_ <=? _) = true |- _ => apply N.leb_le in H
  | H : (_ <=? _) = false |- _ => apply N.leb_gt in H
  | H : (_ =? _) = true |- _ => apply N.eqb_eq in H
  | H : (_ =? _) = false |- _ => apply N.eqb_neq in H
  end.

Lemma lossy_char c rest :
  scalar c = true -> from_utf8_lossy (utf8_char c ++ rest) = utf8_char c ++ from_utf8_lossy rest.
Proof.
  intros Hs. unfold scalar in Hs. unfold utf8_char.
  destruct (N.ltb_spec c 0x80).
  { cbn [app from_utf8_lossy]. replace (c <? 0x80) with true by lia. reflexivity. }
  destruct (N.ltb_spec c 0x800).
  { cbn [app from_utf8_lossy].
    replace (0xC0 + c / 64 <? 0x80) with false by lia.
    replace ((0xC2 <=? 0xC0 + c / 64) && (0xC0 + c / 64 <? 0xE0)) with true by lia.
    unfold cont.
    replace ((0x80 <=? 0x80 + c mod 64) && (0x80 + c mod 64 <? 0xC0)) with true by lia.
    reflexivity. }
  destruct (N.ltb_spec c 0x10000).
  { cbn [app from_utf8_lossy].
    replace (0xE0 + c / 4096 <? 0x80) with false by lia.
    replace ((0xC2 <=? 0xE0 + c / 4096) && (0xE0 + c / 4096 <? 0xE0)) with false by lia.
    replace ((0xE0 <=? 0xE0 + c / 4096) && (0xE0 + c / 4096 <? 0xF0)) with true by lia.
    replace (second3 (0xE0 + c / 4096) (0x80 + c / 64 mod 64)) with true.
    2:{ unfold second3, cont. symmetry.
        destruct (N.eqb_spec (0xE0 + c / 4096) 0xE0); [lia|].
        destruct (N.eqb_spec (0xE0 + c / 4096) 0xED); lia. }
    unfold cont.
    replace ((0x80 <=? 0x80 + c mod 64) && (0x80 + c mod 64 <? 0xC0)) with true by lia.
    reflexivity. }
  cbn [app from_utf8_lossy].
  replace (0xF0 + c / 262144 <? 0x80) with false by lia.
  replace ((0xC2 <=? 0xF0 + c / 262144) && (0xF0 + c / 262144 <? 0xE0)) with false by lia.
  replace ((0xE0 <=? 0xF0 + c / 262144) && (0xF0 + c / 262144 <? 0xF0)) with false by lia.
  replace ((0xF0 <=? 0xF0 + c / 262144) && (0xF0 + c / 262144 <? 0xF5)) with true by lia.
  replace (second4 (0xF0 + c / 262144) (0x80 + c / 4096 mod 64)) with true.
  2:{ unfold second4, cont. symmetry.
      destruct (N.eqb_spec (0xF0 + c / 262144) 0xF0); [lia|].
      destruct (N.eqb_spec (0xF0 + c / 262144) 0xF4); lia. }
  unfold cont.
  replace ((0x80 <=? 0x80 + c / 64 mod 64) && (0x80 + c / 64 mod 64 <? 0xC0)) with true by lia.
  replace ((0x80 <=? 0x80 + c mod 64) && (0x80 + c mod 64 <? 0xC0)) with true by lia.
  reflexivity.
Qed.

(* Bytes taken from a String survive from_utf8_lossy unchanged. *)
Lemma lossy_string b : is_string b -> from_utf8_lossy b = b.
Proof.
  intros (s & Hs & ->). induction s as [|c s IH]; [reflexivity|].
  cbn [forallb] in Hs. apply andb_true_iff in Hs as [Hc Hs].
  change (utf8 (c :: s)) with (utf8_char c ++ utf8 s).
  rewrite lossy_char by exact Hc. f_equal. apply IH; exact Hs.
Qed.

Lemma utf8_char_bytes c : scalar c = true -> bytes_ok (utf8_char c) = true.
Proof.
  intros Hs. unfold scalar in Hs. unfold utf8_char, bytes_ok.
  destruct (N.ltb_spec c 0x80); [cbn [forallb]; unfold byte_ok; lia|].
  destruct (N.ltb_spec c 0x800); [cbn [forallb]; unfold byte_ok; lia|].
  destruct (N.ltb_spec c 0x10000); cbn [forallb]; unfold byte_ok; lia.
Qed.

Lemma utf8_char_nonempty c : utf8_char c <> [].
Proof.
  unfold utf8_char. destruct (c <? 0x80); [discriminate|].
  destruct (c <? 0x800); [discriminate|].
  destruct (c <? 0x10000); discriminate.
Qed.

Lemma is_string_bytes b : is_string b -> bytes_ok b = true.
Proof.
  intros (s & Hs & ->). induction s as [|c s IH]; [reflexivity|].
  cbn [forallb] in Hs. apply andb_true_iff in Hs as [Hc Hs].
  change (utf8 (c :: s)) with (utf8_char c ++ utf8 s).
  rewrite bytes_ok_app, utf8_char_bytes by exact Hc. exact (IH Hs).
Qed.

Lemma is_string_nil : is_string [].
Proof. exists []; split; reflexivity. Qed.

Lemma is_string_ascii b : forallb (fun c => c <? 0x80) b = true -> is_string b.
Proof.
  intros H. exists b. induction b as [|c b IH]; [split; reflexivity|].
  cbn [forallb] in H. apply andb_true_iff in H as [Hc H].
  destruct (IH H) as [IH1 IH2]. split.
  - cbn [forallb]. rewrite IH1. unfold scalar. lia.
  - change (utf8 (c :: b)) with (utf8_char c ++ utf8 b). rewrite <- IH2.
    unfold utf8_char. rewrite Hc. reflexivity.
Qed.

(* from_utf8_lossy always yields the bytes of a String. *)
Lemma is_string_app a b : is_string a -> is_string b -> is_string (a ++ b).
Proof.
  intros (s & Hs & ->) (t & Ht & ->). exists (s ++ t). split.
  - rewrite forallb_app, Hs, Ht; reflexivity.
  - symmetry; apply utf8_app.
Qed.

Lemma is_string_char c : scalar c = true -> is_string (utf8_char c).
Proof.
  intros Hc. exists [c]. split; [cbn [forallb]; rewrite Hc; reflexivity|].
  unfold utf8; cbn [flat_map]; symmetry; apply app_nil_r.
Qed.

Lemma is_string_replacement : is_string replacement.
Proof. exists [0xFFFD]. split; vm_compute; reflexivity. Qed.
